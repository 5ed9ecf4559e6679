(** * Runs of trusses with one free degree of freedom under displacement control *)
From Coq Require Import List ZArith Bool Arith Lia Reals Lra Permutation.
Import ListNotations.
From Verif Require Import Num NumR Vec Handlers Material Analysis Truss Equil Solver Run ListFacts SpecMaterial SpecMech SpecMechR SpecBuild EquilFacts
  MechFacts TangentFacts SpecState FrameFacts SpecBar BarFacts SpecSolver SpecRun RunFacts ReachFacts SessionFacts PropMech RunProps MaterialFacts
  BuildFacts BuildProps SpecHistory HistoryFacts PropBar SpecOne OneFacts.
Local Open Scope R_scope.

Lemma concat_len {A} n (l : list (list A)) : (forall r, In r l -> length r = n) -> length (concat l) = (n * length l)%nat.
Proof.
  induction l as [|r l IH]; intros H; cbn [concat length]; [lia|].
  rewrite app_length, IH by (intros; apply H; right; assumption). rewrite (H r (or_introl eq_refl)). lia.
Qed.

Section Rows.
  Variables (rows : list (list R)) (w : nat).
  Hypothesis Hw : forall r, In r rows -> length r = w.

  Lemma columns_len k : (3 * S k <= w)%nat -> forall r, In r (columns k rows) -> length r = 3%nat.
  Proof.
    intros Hk r Hr. unfold columns in Hr. apply in_map_iff in Hr. destruct Hr as (x & <- & Hx).
    rewrite firstn_length, skipn_length, (Hw x Hx). lia.
  Qed.

  Lemma const_total lpfs k : (3 * S k <= w)%nat -> (k <= length lpfs)%nat ->
    exists fc, const_forces rows lpfs k = Ok fc.
  Proof.
    intros Hk Hl. unfold const_forces.
    set (step := fun (acc : list (list R)) t => match nth_error lpfs t with
                 | Some l => add_scaled acc l (block t rows) | None => Err IndexError end).
    assert (G : forall t, (t <= k)%nat -> exists acc,
      foldM step (seq 0 t) (map (map (fun _ => f0)) (block k rows)) = Ok acc /\
      length acc = length rows /\ forall r, In r acc -> length r = 3%nat).
    { induction t as [|t IH]; intros Ht.
      - eexists. split; [reflexivity|]. split; [unfold block; rewrite !map_length; reflexivity|].
        intros r Hr. apply in_map_iff in Hr. destruct Hr as (x & <- & Hx). rewrite map_length.
        exact (columns_len k Hk x Hx).
      - destruct IH as (acc & E & L & H3); [lia|]. rewrite seq_S, foldM_app, E. cbn [bind foldM Nat.add].
        unfold step. destruct (nth_error lpfs t) as [l|] eqn:El; [|apply nth_error_None in El; lia].
        unfold add_scaled.
        assert (Hb : forall r, In r (block t rows) -> length r = 3%nat) by (apply columns_len; lia).
        replace (forallb _ _) with true.
        2:{ symmetry. apply forallb_forall. intros [x y] Hin. cbn [fst snd]. apply Nat.eqb_eq.
            rewrite (H3 x) by (eapply in_combine_l; exact Hin). rewrite (Hb y) by (eapply in_combine_r; exact Hin). reflexivity. }
        cbn [bind]. eexists. split; [reflexivity|].
        assert (Lb : length acc = length (block t rows)) by (unfold block; rewrite map_length; exact L).
        split; [rewrite map2_len; [exact L|exact Lb]|].
        intros r Hr. apply In_nth_error in Hr. destruct Hr as [i Hi].
        rewrite nth_error_map2 in Hi by exact Lb.
        destruct (nth_error acc i) as [x|] eqn:Ex; [|discriminate].
        destruct (nth_error (block t rows) i) as [y|] eqn:Ey; [|discriminate].
        injection Hi as <-. apply nth_error_In in Ex, Ey. rewrite map2_len; rewrite (H3 x Ex); [reflexivity|].
        symmetry. apply Hb, Ey. }
    destruct (G k (le_n _)) as (acc & E & _). exists acc. exact E.
  Qed.

  Lemma setup_total s k p : (3 * S k <= w)%nat -> (k <= length (r_lpf_end s))%nat -> a_DOF1 (r_an s) = [p] ->
    (p < 3 * length rows)%nat -> exists an, step_setup rows k s = Ok an.
  Proof.
    intros Hk Hl HD Hp. unfold step_setup. destruct (const_total (r_lpf_end s) k Hk Hl) as (fc & ->). cbn [bind].
    rewrite HD. cbn [gather].
    destruct (nth_error (concat (block k rows)) p) eqn:E; [cbn [bind]; eauto|].
    apply nth_error_None in E. change (block k rows) with (columns k rows) in E. rewrite (concat_len 3) in E by (apply columns_len, Hk).
    unfold columns in E. rewrite map_length in E. lia.
  Qed.
End Rows.

Section Run.
  Variables (c : ctx R) (ms : list (member R)) (p : nat) (rows : list (list R)) (w : nat).
  Hypotheses (Hok : truss_ok c ms) (Hn : c_ndof1 c = 1%nat) (Hw : forall r, In r rows -> length r = w)
    (Hrows : length rows = length (c_labels c)).
  Variables (argsortF : list R -> list nat) (solve : list (list R) -> list R -> list R) (st : settings R) (j : Z).
  Hypotheses (Hsolve : exact2 solve) (Hsort : sorts_pairs argsortF) (Hst : disp_control st j).
  Variables (N : nat) (n : nat -> Z) (kl : nat -> Z).
  Hypotheses (HN : (3 * N <= w)%nat) (Hload : forall k, (k < N)%nat -> nth p (concat (columns k rows)) 0 <> 0)
    (Hincs : forall k, (k < N)%nat -> at_step (s_incs st) k = Ok (n k))
    (Hlim : forall k, (k < N)%nat -> at_step (s_xlimit st) k = Ok (kl k, None) /\ (-1 <= kl k <= 2)%Z).
  Notation adv := (s_du st * IZR (Z.sgn j)).

  (** An object from which a step may start. *)
  Definition base (u : R) (a : analysis R) : Prop :=
    sizes_ok c ms a /\ props_ok c ms a /\ a_DOF1 a = [p] /\ a_Ured a = [u].

  Lemma start_fit lpfs k prev an u : (k < N)%nat -> base u prev -> step_starts rows lpfs k prev an ->
    one_free c ms p (nth p (concat (columns k rows)) 0) an /\ a_Ured an = [u].
  Proof.
    intros Hk (B1 & B2 & B3 & B4) (S1 & (S2 & S2') & S3 & S4 & S5).
    assert (Hcol : forall r, In r (columns k rows) -> length r = 3%nat) by (apply (columns_len rows w Hw); lia).
    split; [|rewrite S5; exact B4].
    assert (E1 : a_DOF1 an = [p]) by (rewrite S5; exact B3).
    split; [|split; [|split; [|split; [|split]]]].
    - rewrite S5. exact B1.
    - split.
      + rewrite (concat_len 3); [lia|]. intros r Hr. apply In_nth_error in Hr. destruct Hr as [i Hi].
        assert (i < length rows)%nat by (rewrite <- S2; apply nth_error_Some; congruence).
        destruct (nth_error rows i) as [row|] eqn:E; [|apply nth_error_None in E; lia].
        destruct (S2' _ _ E) as (fr & F1 & F2 & _). assert (fr = r) by congruence. subst fr. rewrite F2.
        apply Hcol. unfold columns. apply in_map_iff. exists row. split; [reflexivity|]. eapply nth_error_In, E.
      + rewrite S3, (concat_len 3) by exact Hcol. unfold columns. rewrite map_length. lia.
    - rewrite S5. exact B2.
    - exact E1.
    - rewrite B3 in S4. cbn [gather] in S4. destruct (nth_error (concat (columns k rows)) p) eqn:E; [|discriminate].
      cbn [bind] in S4. injection S4 as <-. f_equal. symmetry. now apply nth_error_nth.
    - rewrite S3. reflexivity.
  Qed.

  Lemma limit_ok k x : (k < N)%nat -> length x = 2%nat -> beyond_limit (pf_config st (kl k, None) (n k)) x = Ok false.
  Proof.
    intros Hk Hx. destruct (Hlim k Hk) as [_ Hl]. destruct x as [|a [|b [|? ?]]]; try discriminate.
    unfold beyond_limit. cbn [cf_xlimit pf_config].
    assert (kl k = -1 \/ kl k = 0 \/ kl k = 1 \/ kl k = 2)%Z as [->|[->|[->| ->]]] by lia; reflexivity.
  Qed.

  Lemma one_path k an u fuel : (k < N)%nat -> one_free c ms p (nth p (concat (columns k rows)) 0) an ->
    exists s recs, pathfollow solve argsortF (equilibrium c) (stiffness c) [u] an (DxVec [s_du st; s_dlpf st]) (s_j0 st) (s_jpre st)
        (pf_config st (kl k, None) (n k)) (S fuel) = Ok s /\
      ps_res s = ([u; 0], an) :: recs /\ length recs = Z.to_nat (n k) /\
      (forall q x a, nth_error recs q = Some (x, a) ->
         exists l, x = [u + INR (S q) * adv; l] /\ a_lpf a = l /\ a_Ured a = [u + INR (S q) * adv] /\
           one_free c ms p (nth p (concat (columns k rows)) 0) a /\
           driven_to (pf_config st (kl k, None) (n k)) (u + INR (S q) * adv) l a) /\
      (exists k', ps_out s = repeat MIncr k').
  Proof.
    intros Hk Hf. destruct Hst as (T1 & T2 & T3 & T4 & T5 & T6 & T7 & T8). rewrite T2.
    apply (one_pathfollow c ms p Hok Hn _ j (Hload k Hk) T3 solve Hsolve argsortF (pf_config st (kl k, None) (n k)) (s_du st) (s_dlpf st) Hsort
      T1 T4 T5 (pow10neg_pos _) (pow10neg_pos _) T6 (fun x => limit_ok k x Hk) T7 u an (s_jpre st) fuel Hf).
  Qed.

  Lemma log_facts fuel lpfs k prev lg u : (k < N)%nat -> base u prev -> step_starts rows lpfs k prev (lg_start lg) ->
    step_ran argsortF solve c st (S fuel) k lg ->
    driven p (pow10neg (s_ftol st)) u adv (Z.to_nat (n k)) lg /\
    base (u + INR (Z.to_nat (n k)) * adv) (lg_final lg).
  Proof.
    intros Hk Hb Hs (incs & xl & pf & R1 & R2 & R3 & R4 & R5). apply at_step_in in R1, R2.
    destruct (start_fit _ _ _ _ _ Hk Hb Hs) as [Hf HU]. rewrite HU in *.
    rewrite (Hincs k Hk) in R1. injection R1 as <-. destruct (Hlim k Hk) as [Hx _]. rewrite Hx in R2. injection R2 as <-.
    destruct (one_path k (lg_start lg) u fuel Hk Hf) as (s & recs & E1 & E2 & E3 & E4 & k' & E5).
    rewrite R3 in E1. injection E1 as <-. rewrite R4 in E2. injection E2 as E2.
    split.
    - split; [rewrite E2; exact E3|]. split.
      + rewrite <- R5, E5. intros e He. apply repeat_spec in He. subst e. intros [H|H]; discriminate.
      + rewrite E2. intros q x a Hq. destruct (E4 q x a Hq) as (l & G1 & G2 & G3 & G4 & G5 & G6).
        destruct G4 as (_ & _ & _ & D & _). rewrite D in *. rewrite G2. auto.
    - destruct recs as [|[x a] recs'] eqn:Er using rev_ind; [|clear IHrecs'].
      + unfold lg_final. rewrite E2. cbn [last snd]. cbn in E3. rewrite <- E3. cbn [INR].
        replace (u + 0 * adv) with u by ring. destruct Hf as (F1 & _ & F3 & F4 & _). exact (conj F1 (conj F3 (conj F4 HU))).
      + unfold lg_final. rewrite E2, last_last. cbn [snd]. rewrite app_length in E3. cbn [length] in E3.
        destruct (E4 (length recs') x a) as (l & G1 & G2 & G3 & G4 & _).
        { rewrite nth_error_app2, Nat.sub_diag by lia. reflexivity. }
        replace (Z.to_nat (n k)) with (S (length recs')) by lia. destruct G4 as (F1 & _ & F3 & F4 & _).
        exact (conj F1 (conj F3 (conj F4 G3))).
  Qed.

  Lemma base_over u a : base u a -> base u (handed_over a).
  Proof. exact (fun H => H). Qed.

  Lemma incs_S k : incs_before n (S k) = (incs_before n k + Z.to_nat (n k))%nat.
  Proof. unfold incs_before. rewrite seq_S, map_app, list_sum_app. cbn. lia. Qed.

  Lemma steps_facts fuel u0 : forall logs k prev lpfs pl, (k + length logs <= N)%nat ->
    base (u0 + INR (incs_before n k) * adv) prev -> steps_from argsortF solve c st rows (S fuel) k prev lpfs pl logs ->
    forall i lg, nth_error logs i = Some lg ->
      driven p (pow10neg (s_ftol st)) (u0 + INR (incs_before n (k + i)) * adv) adv (Z.to_nat (n (k + i)%nat)) lg /\
      base (u0 + INR (incs_before n (k + S i)) * adv) (lg_final lg).
  Proof.
    induction logs as [|lg logs IH]; intros k prev lpfs pl Hk Hb H i l Hi; [destruct i; discriminate|].
    cbn [steps_from length] in *. destruct H as (H1 & H2 & H3).
    destruct (log_facts fuel lpfs k prev lg _ ltac:(lia) Hb H1 H2) as [D B].
    replace (u0 + INR (incs_before n k) * adv + INR (Z.to_nat (n k)) * adv) with (u0 + INR (incs_before n (S k)) * adv) in B
      by (rewrite incs_S, plus_INR; ring).
    destruct i as [|i]; cbn [nth_error] in Hi.
    - injection Hi as <-. rewrite Nat.add_0_r, Nat.add_1_r. auto.
    - replace (k + S i)%nat with (S k + i)%nat by lia. replace (k + S (S i))%nat with (S k + S i)%nat by lia.
      eapply IH; [| |exact H3|exact Hi]; [lia|]. apply base_over, B.
  Qed.

  (** The run does not raise. *)
  Lemma step_total fuel done v s k u : (k < N)%nat -> base u (r_an s) -> r_R s = done ++ [v] -> (k <= length (r_lpf_end s))%nat ->
    exists s', run_step argsortF solve c st rows N (S fuel) s k = Ok s' /\
      length (r_lpf_end s') = S (length (r_lpf_end s)) /\
      ((S k < N)%nat -> (exists done' v', r_R s' = done' ++ [v']) /\ base (u + INR (Z.to_nat (n k)) * adv) (r_an s')).
  Proof.
    intros Hk Hb HR Hl.
    assert (Hp : (p < 3 * length rows)%nat).
    { destruct Hb as ((_ & _ & _ & _ & _ & _ & _ & _ & _ & Hin & _) & _ & HD & _). rewrite Hrows. apply Hin. rewrite HD. now left. }
    destruct (setup_total rows w Hw s k p ltac:(lia) Hl ltac:(apply Hb) Hp) as (an & Ean).
    pose proof (step_setup_ok _ _ _ _ Ean) as Hs.
    destruct (start_fit _ _ _ _ _ Hk Hb Hs) as [Hf HU].
    destruct (one_path k an u fuel Hk Hf) as (pf & recs & E1 & E2 & _).
    assert (E : exists s', run_step argsortF solve c st rows N (S fuel) s k = Ok s').
    { unfold run_step. rewrite (Hincs k Hk). cbn [bind].
      replace (match s_xlimit st with Per [] => Err IndexError | q => at_step q k end) with (@Ok (Z * option R) (kl k, None)).
      2:{ destruct (Hlim k Hk) as [Hx _]. destruct (s_xlimit st) as [?|[|? ?]]; rewrite Hx || idtac; try reflexivity.
          destruct k; discriminate. }
      cbn [bind]. rewrite Ean. cbn [bind]. rewrite HU.
      change (fun V V0 w a => equilibrium c V V0 w a) with (equilibrium c). change (fun U a => stiffness c U a) with (stiffness c).
      rewrite E1. cbn [bind]. rewrite E2, HR. cbn [tl]. rewrite write_results, app_assoc, copy_U_snoc, rev_app_distr.
      cbn [rev app bind]. destruct (Nat.ltb (k + 1) N); eexists; reflexivity. }
    destruct E as (s' & Es'). exists s'. split; [exact Es'|].
    destruct (run_step_ok _ _ _ _ _ _ _ _ _ _ _ _ Es' HR) as (lg & L1 & L2 & L3 & _ & L5).
    split; [rewrite L3, app_length; cbn; lia|]. intros HkN.
    destruct (Nat.ltb_spec (k + 1) N); [|lia]. destruct L5 as (L5 & v' & L6 & _). split; [eauto|].
    rewrite L5. apply base_over. eapply log_facts; eassumption.
  Qed.

  Lemma steps_total fuel : forall i k done v s u, (k + i = N)%nat -> base u (r_an s) -> r_R s = done ++ [v] ->
    (k <= length (r_lpf_end s))%nat -> exists s', foldM (run_step argsortF solve c st rows N (S fuel)) (seq k i) s = Ok s'.
  Proof.
    induction i as [|i IH]; intros k done v s u Hk Hb HR Hl; [eexists; reflexivity|].
    cbn [seq foldM]. destruct (step_total fuel done v s k u ltac:(lia) Hb HR Hl) as (s' & -> & L & H). cbn [bind].
    destruct i as [|i]; [eexists; reflexivity|].
    destruct (H ltac:(lia)) as ((done' & v' & HR') & Hb'). eapply IH; try eassumption; lia.
  Qed.
End Run.

Section Session.
  Variables (argsortZ : list Z -> list nat) (argsortF : list R -> list nat) (solve : list (list R) -> list R -> list R).

  (** State variables of every member in force during a session. *)
  Lemma session_props (P : settings R -> Prop) m ns ms bs fs m1 nh eh u1 :
    argsort_ok argsortZ -> described m ns ms bs fs -> members_ok ms -> (forall st, P st -> (0 < s_nsteps st)%Z) ->
    session argsortF solve argsortZ P m m1 -> m_built m1 = Some u1 -> props_ok (ctx_of m1 u1 nh eh) ms (u_an u1).
  Proof.
    intros HA Hd Hm HP S E1 k b Hb. destruct (Hm b (nth_error_In _ _ Hb)) as [Hg Hl]. split; [exact Hg|].
    destruct (mb_law b) eqn:El; [exact Hl|]. split; [exact Hl|].
    assert (En : s_nstatev (m_set m1) = 2%Z).
    { clear - S Hd Hb El. assert (Hin : In b ms) by (eapply nth_error_In; eassumption).
      induction S as [m' H|m1 fuel m2 out S IH Hp H|m1 st S IH E].
      - destruct (build_inv _ _ _ H) as (nh0 & eh & nh & bh & fh & D0 & D1 & an & A1 & A2 & _ & _ & _ & _ & _ & _ & _ & _ & ->).
        cbv zeta. cbn [m_set with_nstatev s_nstatev]. destruct Hd as (_ & _ & _ & (eh0 & A3 & A4) & _).
        assert (eh0 = eh) by congruence. subst eh0. destruct A4 as (_ & _ & A4 & _).
        replace (existsb (Z.eqb 2) (el_mtype eh)) with true; [reflexivity|]. symmetry. apply existsb_exists. exists 2%Z.
        split; [|reflexivity]. rewrite A4. apply in_map_iff. exists b. rewrite El. auto.
      - rewrite (run_nstatev _ _ _ _ _ _ H). exact IH.
      - exact (eq_trans E IH). }
    destruct (session_traced _ _ _ P m ns ms bs fs m1 HA Hd HP S ltac:(rewrite En; lia)) as (recs & HT).
    destruct (session_history _ _ _ _ _ _ _ _ _ _ _ _ _ HA Hd HT ltac:(rewrite En; lia) Hb) as (l' & _ & _ & _ & u & Eu & _ & Hlr & sv & F1 & F2).
    assert (u = u1) by congruence. subst u. unfold state_row. cbn [c_nstatev ctx_of]. rewrite En. cbn [Z.ltb Z.compare].
    rewrite F1, F2, En, El in *. clear - Hlr Hl.
    rewrite <- (outs_rows k l') in *. revert Hlr. generalize (map (member_strain k) l'), (map (member_out k) l'). intros h outs H.
    change (Z.to_nat 2) with 2%nat in *. cbn [repeat] in *.
    assert (G : exists y q r, last (map snd outs) [f0; f0] = y :: q :: r).
    { destruct H as [|h outs e s t row H Hu]; [cbn; eauto|]. rewrite map_app. cbn [map snd]. rewrite last_last.
      specialize (Hu 0). cbn [umat] in Hu. destruct (umat_pl_shape _ _ _ _ _ Hu) as (E & K & Sy & rest & y & q & sr & Em & Er).
      injection Er as Er. match type of Hu with _ _ _ _ (Some ?r) = _ => change (r = y :: q :: sr) in Er end.
      rewrite Em, Er, umat_pl_pad in Hu. destruct (umat_pl_total E K Sy e 0 y q) as (s' & t' & y' & q' & Eu).
      rewrite Eu in Hu. injection Hu as _ _ <-. eauto. }
    destruct G as (y & q & r & G). exists y, q, r. now rewrite G.
  Qed.

  Lemma driven_run (P : settings R -> Prop) m ns ms bs fs m1 u1 p fh j n kl fuel :
    argsort_ok argsortZ -> sorts_pairs argsortF -> exact2 solve -> described m ns ms bs fs -> members_ok ms ->
    (forall st, P st -> (0 < s_nsteps st)%Z) -> session argsortF solve argsortZ P m m1 ->
    m_built m1 = Some u1 -> a_DOF1 (u_an u1) = [p] -> m_forces m1 = Some fh ->
    disp_control (m_set m1) j -> (0 < s_nsteps (m_set m1))%Z ->
    (forall r, In r (e_rows fh) -> (3 * Z.to_nat (s_nsteps (m_set m1)) <= length r)%nat) ->
    (forall k, (k < Z.to_nat (s_nsteps (m_set m1)))%nat ->
       nth p (concat (columns k (e_rows fh))) 0 <> 0 /\ at_step (s_incs (m_set m1)) k = Ok (n k) /\
       at_step (s_xlimit (m_set m1)) k = Ok (kl k, None) /\ (-1 <= kl k <= 2)%Z) ->
    exists u0 m2 out logs, a_Ured (u_an u1) = [u0] /\ ran_as argsortF solve m1 (S fuel) m2 out logs /\
      (forall k lg, nth_error logs k = Some lg ->
        driven p (pow10neg (s_ftol (m_set m1))) (u0 + INR (incs_before n k) * (s_du (m_set m1) * IZR (Z.sgn j)))
          (s_du (m_set m1) * IZR (Z.sgn j)) (Z.to_nat (n k)) lg) /\
      exists u2, m_built m2 = Some u2 /\ a_DOF1 (u_an u2) = [p] /\ 
        a_Ured (u_an u2) = [u0 + INR (incs_before n (Z.to_nat (s_nsteps (m_set m1)))) * (s_du (m_set m1) * IZR (Z.sgn j))].
  Proof.
    intros HA Hs2 Hex Hd Hm HP S E1 HD Ef Hdc Hns Hwd Hall.
    destruct (sound_session _ _ _ _ _ _ _ _ _ _ HA Hd S) as (mb & Hb & S1 & S2 & S3 & S4 & S5 & nh & eh & ub & u & A1 & A2 & A3 & A4 & A5 & A6 & HH).
    cbv zeta in HH. destruct HH as (Ec & Htr & Hnd & _ & Hre & Hlen & _). assert (u = u1) by congruence. subst u.
    destruct (build_reached _ _ _ _ _ _ _ HA Hd Hb)
      as (nhb & ehb & fh' & ub' & ns' & B1 & B2 & B3 & B4 & Hns' & Hp & _ & Hfa & _ & _).
    assert (nhb = nh) by congruence. assert (ehb = eh) by congruence. assert (ub' = ub) by congruence.
    assert (fh' = fh) by congruence. subst nhb ehb ub' fh'.
    rewrite B3 in Hfa. destruct Hfa as (F1 & F2 & F3). rewrite Forall_forall in F3.
    rewrite <- Ec in *. set (c := ctx_of m1 u1 nh eh) in *.
    destruct Hre as (Hsz & _ & HD1 & _).
    assert (Hn1 : c_ndof1 c = 1%nat).
    { destruct Hsz as (_ & _ & _ & _ & _ & _ & _ & _ & _ & _ & Hn & _). rewrite Hn, HD. reflexivity. }
    assert (Hrows : length (e_rows fh) = length (c_labels c)).
    { rewrite F2. unfold rows_for. rewrite !map_length. cbn [c ctx_of c_labels]. rewrite B1 in Hns'. destruct Hns' as [-> _]. now rewrite map_length. }
    assert (Hw3 : (3 * Z.to_nat (s_nsteps (m_set m1)) <= e_width fh)%nat).
    { destruct (e_rows fh) as [|r rs] eqn:Er.
      - exfalso. cbn [length] in Hrows. assert (Hl : In p (a_DOF1 (u_an u1))) by (rewrite HD; now left).
        destruct Hsz as (_ & _ & _ & _ & _ & _ & _ & _ & _ & Hin & _). apply Hin in Hl. lia.
      - rewrite <- (F3 r (or_introl eq_refl)). apply Hwd. now left. }
    assert (HUr : exists u0, a_Ured (u_an u1) = [u0]).
    { specialize (Hlen ltac:(lia)). rewrite Hn1 in Hlen. destruct (a_Ured (u_an u1)) as [|x [|? ?]]; cbn in Hlen; try lia. eauto. }
    destruct HUr as [u0 HUr].
    pose proof (session_props P m ns ms bs fs m1 nh eh u1 HA Hd Hm HP S E1) as Hpr.
    set (st := m_set m1) in *. set (N := Z.to_nat (s_nsteps st)) in *.
    assert (HL : forall k, (k < N)%nat -> nth p (concat (columns k (e_rows fh))) 0 <> 0) by (intros; apply Hall; assumption).
    assert (HI : forall k, (k < N)%nat -> at_step (s_incs st) k = Ok (n k)) by (intros; apply Hall; assumption).
    assert (HX : forall k, (k < N)%nat -> at_step (s_xlimit st) k = Ok (kl k, None) /\ (-1 <= kl k <= 2)%Z) by (intros; apply Hall; assumption).
    set (an := set_lpf f0 (set_Vred (a_Ured (u_an u1) ++ [f0]) (u_an u1))).
    assert (Hba : base c ms p u0 an) by (exact (conj Hsz (conj Hpr (conj HD HUr)))).
    assert (HR : exists r0 rest, u_R u1 = r0 :: rest).
    { clear - S E1 Hd HA. revert u1 E1. induction S as [m' H|m1 fuel m2 out S IH Hp H|m1 st S IH E]; intros u1 E1.
      - destruct (build_reached _ _ _ _ _ _ _ HA Hd H) as (nh & eh & fh & u & ns' & _ & _ & _ & Eu & _ & _ & _ & _ & _ & (r0 & HR & _) & _).
        assert (u = u1) by congruence. subst u. rewrite HR. eauto.
      - apply run_ok in H. destruct H as (u & nh & eh & fh & r0 & rest & u' & A1 & A2 & A3 & A4 & A5 & Em & A7 & A8 & H).
        subst m2. cbn in E1. injection E1 as <-. destruct (s_nsteps (m_set m1) <=? 0)%Z.
        + destruct H as (H & _). rewrite H. eauto.
        + destruct H as (logs & _ & _ & H & _). rewrite H. eauto.
      - exact (IH u1 E1). }
    destruct HR as (r0 & rest & HR).
    assert (HRl : exists done v, r0 :: u_R u1 = done ++ [v]).
    { exists (removelast (r0 :: u_R u1)), (last (r0 :: u_R u1) r0). apply app_removelast_last. discriminate. }
    destruct HRl as (done & v & HRl).
    destruct (steps_total c ms p (e_rows fh) (e_width fh) Htr Hn1 F3 Hrows argsortF solve st j Hex Hs2 Hdc N n kl Hw3 HL HI HX fuel N 0 done v
      (Rs an (r0 :: u_R u1) (u_lpf_end u1) []) u0 ltac:(lia) Hba HRl ltac:(cbn; lia)) as (s' & Es').
    assert (Erun : exists m2 out, run argsortF solve m1 (Datatypes.S fuel) = Ok (m2, out)).
    { unfold run. destruct Hdc as (_ & _ & _ & _ & _ & _ & _ & Hlog). fold st.
      replace (1 <? s_log st)%Z with false by (symmetry; apply Z.ltb_ge; lia). cbn [andb].
      rewrite E1, S1, S2, A1, A2, Ef, HR. rewrite <- HR.
      change (Ctx _ _ _ _ _ _) with c. fold N. fold an. rewrite Es'. cbn [bind]. eauto. }
    destruct Erun as (m2 & out & Er). destruct (run_ran_as _ _ _ _ _ _ Er Hns) as (logs & HRA).
    exists u0, m2, out, logs. split; [exact HUr|]. split; [exact HRA|].
    destruct HRA as (_ & Hll & Hne & u & nh' & eh' & fh' & r0' & rest' & u' & C1 & C2 & C3 & C4 & C5 & C6 & C7 & _ & _ & _ & C11).
    assert (u = u1) by congruence. assert (nh' = nh) by congruence. assert (eh' = eh) by congruence. assert (fh' = fh) by congruence.
    subst u nh' eh' fh'.
    assert (G : forall i lg, nth_error logs i = Some lg ->
      driven p (pow10neg (s_ftol st)) (u0 + INR (incs_before n i) * (s_du st * IZR (Z.sgn j))) (s_du st * IZR (Z.sgn j)) (Z.to_nat (n i)) lg /\
      base c ms p (u0 + INR (incs_before n (1 + i)) * (s_du st * IZR (Z.sgn j))) (lg_final lg)).
    { eapply (steps_facts c ms p (e_rows fh) (e_width fh) Htr Hn1 F3 Hrows argsortF solve st j Hex Hs2 Hdc N n kl Hw3 HL HI HX fuel u0 logs 0);
        [| |exact C7]; [unfold N, st in *; lia|]. cbn [incs_before seq map list_sum fold_right INR].
      replace (u0 + 0 * _) with u0 by ring. exact Hba. }
    split; [intros k lg Hk; apply (G k lg Hk)|].
    exists u'. split; [exact C6|].
    destruct logs as [|lg logs'] eqn:El using rev_ind; [congruence|]. clear IHlogs'.
    rewrite (C11 lg), last_last. rewrite app_length in Hll. cbn [length] in Hll.
    destruct (G (length logs') lg) as [_ (_ & _ & G1 & G2)]; [rewrite nth_error_app2, Nat.sub_diag by lia; reflexivity|].
    split; [exact G1|]. rewrite G2. do 4 f_equal. unfold N, st. f_equal. lia.
  Qed.
End Session.
