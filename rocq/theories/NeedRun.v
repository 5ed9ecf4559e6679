(** * Lemmas behind: what a run that returns shows about its model and settings *)
From Coq Require Import List ZArith Bool Arith Lia Permutation.
Import ListNotations.
From Verif Require Import Num Vec Handlers Material Analysis Truss Equil Solver Run ListFacts SpecMech SpecBuild BuildFacts
  EquilFacts SpecState FrameFacts EvalFacts SpecSolver SolverFacts SpecRun RunFacts RecFacts ReachFacts SessionFacts RunProps SpecValid.

Lemma py_get_range {A} (l : list A) i x : py_get l i = Ok x -> (- Z.of_nat (length l) <= i < Z.of_nat (length l))%Z.
Proof.
  unfold py_get, py_pos. destruct (Z.leb_spec 0 i); cbn [andb].
  - destruct (Z.ltb_spec i (Z.of_nat (length l))); cbn [bind]; [lia|]. destruct (Z.leb_spec (- Z.of_nat (length l)) i); cbn [andb bind]; [|discriminate].
    destruct (Z.ltb_spec i 0); cbn [bind]; [lia|discriminate].
  - destruct (Z.leb_spec (- Z.of_nat (length l)) i); cbn [andb bind]; [lia|discriminate].
Qed.

Section Need.
  Context {F : Type} `{NF : Num F}.
  Implicit Types (c : ctx F) (a : analysis F).

  Lemma item_some {A} (l : list A) k x : item l k = Ok x -> k < length l.
  Proof. unfold item. destruct (nth_error l k) eqn:E; [|discriminate]. intros _. apply nth_error_Some. congruence. Qed.

  Lemma step_needs c ms st U l w s k b s' : lists_members (c_elems c) ms -> NoDup (map mb_label ms) -> nth_error ms k = Some b ->
    elem_step c st U l w s (mb_label b) = Ok s' -> complete b.
  Proof.
    intros Hl Hn Hk H. destruct (lists_nth _ _ _ _ Hl Hn Hk) as (_ & G1 & G2 & G3 & G4).
    unfold elem_step in H. rewrite G1, G2, G3, G4 in H. cbn [bind] in H.
    do 9 (apply bind_ok in H; destruct H as (? & _ & H)). rewrite select_law in H.
    apply bind_ok in H. destruct H as ([a1 sv] & H & _). unfold truss in H. cbv zeta in H.
    apply bind_ok in H. destruct H as (sve & _ & H). apply bind_ok in H. destruct H as (q & H & _).
    unfold truss_quantities in H. cbv zeta in H. apply bind_ok in H. destruct H as ([[s1 d1] sv1] & Hu & H).
    apply bind_ok in H. destruct H as (A & HA & _). apply item_some in HA. split; [destruct (mb_geo b); [cbn in HA; lia|discriminate]|].
    destruct (mb_law b); cbn [umat] in Hu.
    - unfold umat_el in Hu. apply bind_ok in Hu. destruct Hu as (E & HE & _). apply item_some in HE. destruct (mb_mat b); [cbn in HE; lia|discriminate].
    - unfold umat_elplast_iso in Hu. do 2 (apply bind_ok in Hu; destruct Hu as (? & _ & Hu)).
      apply bind_ok in Hu. destruct Hu as (Sy & HS & _). apply item_some in HS. lia.
  Qed.

  Lemma fold_each {A S} (f : S -> A -> res S) : forall l s s', foldM f l s = Ok s' -> forall e, In e l -> exists s1 s2, f s1 e = Ok s2.
  Proof.
    induction l as [|x l IH]; intros s s' H e He; [destruct He|]. cbn [foldM] in H. apply bind_ok in H. destruct H as (s1 & H1 & H2).
    destruct He as [<- | He]; [eauto|]. eapply IH; eassumption.
  Qed.

  Lemma stiffness_needs c ms u a r : lists_members (c_elems c) ms -> NoDup (map mb_label ms) ->
    stiffness c u a = Ok r -> forall b, In b ms -> complete b.
  Proof.
    intros Hl Hn H b Hb. apply In_nth_error in Hb. destruct Hb as [k Hk]. unfold stiffness in H.
    apply bind_ok in H. destruct H as ([[a1 U] l] & _ & H). apply bind_ok in H. destruct H as (a2 & H & _).
    unfold elem_loop in H. apply bind_ok in H. destruct H as (s & H & _).
    destruct (fold_each _ _ _ _ H (mb_label b)) as (s1 & s2 & E).
    - destruct Hl as (-> & _). apply in_map. eapply nth_error_In, Hk.
    - eapply step_needs; eassumption.
  Qed.

  Variables (argsortF : list F -> list nat) (solve : list (list F) -> list F -> list F).

  (** The first iteration evaluates stiffness and forces. *)
  Definition evaluated c (a0 : analysis F) : Prop :=
    exists u a1 K V V0 a2 r, stiffness c u (a1 : analysis F) = Ok K /\ equilibrium c V V0 false a2 = Ok r /\ silent c a0 a2.

  Lemma newton_needs c x0 j xmax x nfev ft xt a r :
    newton solve (f_ext (equilibrium c) x0 j xmax false) (dfdx (stiffness c) j) x nfev ft xt a = Ok r ->
    (1 <= nfev)%Z /\ evaluated c a.
  Proof.
    intros H. unfold newton in H. destruct (Z.to_nat nfev) as [|k] eqn:En; [discriminate|]. split; [lia|]. cbn [newton_loop] in H.
    apply bind_ok in H. destruct H as ([s1 Km] & Hd & H). apply bind_ok in H. destruct H as ([s2 fv] & Hf & _).
    unfold dfdx in Hd. cbv zeta in Hd. apply bind_ok in Hd. destruct Hd as (qc & _ & Hd). apply bind_ok in Hd. destruct Hd as ([a1 K] & HK & Hd).
    apply bind_ok in Hd. destruct Hd as (Kf & _ & Hd). destruct (forallb _ _); [|discriminate]. injection Hd as <- <-.
    unfold f_ext in Hf. apply bind_ok in Hf. destruct Hf as (r1 & Hg & _).
    exists (removelast x), (set_j j a), (a1, K), x, x0, (set_j j (set_Kmod (Kf ++ [qc]) a1)), r1.
    split; [exact HK|]. split; [exact Hg|].
    destruct (silent_quiet c) as (Q1 & Q2 & Q3 & Q4 & Q5 & Q6 & Q7).
    eapply Q2; [apply Q5|]. eapply Q2; [exact (Q4 _ _ _ _ HK)|]. eapply Q2; [apply Q7|apply Q5].
  Qed.

  Lemma recycle_needs c (cfg : pfcfg F) x0 d0 pre fuel s r :
    recycle solve argsortF (equilibrium c) (stiffness c) cfg x0 d0 pre fuel s = Ok r ->
    (1 <= cf_nfev cfg - rc_npre s)%Z /\ evaluated c (rc_an s) /\ (Z.abs (rc_j s) <= Z.of_nat (length x0))%Z.
  Proof.
    intros H. destruct fuel as [|fuel]; [discriminate|]. cbn [recycle] in H. apply bind_ok in H. destruct H as (xj & Hj & H).
    apply bind_ok in H. destruct H as (dj & _ & H). apply bind_ok in H. destruct H as (xs & _ & H). apply bind_ok in H. destruct H as ([a1 o] & Hn & _).
    apply newton_needs in Hn. apply py_get_range in Hj. destruct Hn as [H1 H2]. split; [exact H1|]. split; [exact H2|lia].
  Qed.

  Lemma increment_needs c (cfg : pfcfg F) d0 fuel s r :
    increment solve argsortF (equilibrium c) (stiffness c) cfg d0 fuel s = Ok r ->
    (ps_jpre s = false \/ cf_jfixed cfg = true -> (1 <= cf_nfev cfg)%Z) /\ evaluated c (ps_an s) /\
    (cf_jfixed cfg = true -> (Z.abs (ps_j s) <= Z.of_nat (length (ps_x s)))%Z).
  Proof.
    intros H. unfold increment in H. cbv zeta in H. destruct (ps_jpre s && negb (cf_jfixed cfg)) eqn:Ep.
    - apply andb_prop in Ep. destruct Ep as [E1 E2]. rewrite E1. destruct (cf_jfixed cfg); [discriminate|].
      split; [intros [A|A]; discriminate|]. split; [|discriminate]. apply bind_ok in H. destruct H as (p & Hp & _).
      unfold predict in Hp. cbv zeta in Hp. apply bind_ok in Hp. destruct Hp as (xj & _ & Hp). apply bind_ok in Hp. destruct Hp as (dj & _ & Hp).
      apply bind_ok in Hp. destruct Hp as ([a1 o] & Hp & _). apply newton_needs in Hp. apply Hp.
    - apply bind_ok in H. destruct H as ([[rr x] stop] & H & _). apply recycle_needs in H. cbn [rc_an rc_npre rc_j] in H.
      destruct H as (H1 & H2 & H3). split; [intros _; lia|]. split; [exact H2|intros _; exact H3].
  Qed.

  Lemma step_ran_needs c st fuel k (lg : step_log F) incs : step_ran argsortF solve c st fuel k lg ->
    in_step (s_incs st) k incs -> (1 <= incs)%Z ->
    (s_jpre st = false \/ s_jfixed st = true -> (1 <= s_nfev st)%Z) /\ evaluated c (lg_start lg) /\
    (s_jfixed st = true -> exists j, s_j0 st = Some j /\ (Z.abs j <= Z.of_nat (S (length (a_Ured (lg_start lg)))))%Z).
  Proof.
    intros (incs' & xl & pf & Hi & _ & H & _) Hi2 Hp. assert (incs' = incs) by (unfold in_step in *; destruct (s_incs st); congruence). subst incs'.
    unfold pathfollow in H. cbv zeta in H. cbn [cf_jfixed cf_incs pf_config] in H.
    assert (G : forall j, increments solve argsortF (equilibrium c) (stiffness c) (pf_config st xl incs)
        (expand_dxmax (length (a_Ured (lg_start lg) ++ [f0])) (DxVec [s_du st; s_dlpf st])) fuel (Z.to_nat incs)
        (Pf (lg_start lg) (a_Ured (lg_start lg) ++ [f0]) j (s_jpre st) (expand_dxmax (length (a_Ured (lg_start lg) ++ [f0])) (DxVec [s_du st; s_dlpf st])) 4
           [(a_Ured (lg_start lg) ++ [f0], lg_start lg)] []) = Ok pf ->
      (s_jpre st = false \/ s_jfixed st = true -> (1 <= s_nfev st)%Z) /\ evaluated c (lg_start lg) /\
      (s_jfixed st = true -> (Z.abs j <= Z.of_nat (S (length (a_Ured (lg_start lg)))))%Z)).
    { intros j G. destruct (Z.to_nat incs) as [|q] eqn:Eq; [lia|]. cbn [increments] in G. apply bind_ok in G. destruct G as ([s1 stop] & G & _).
      apply increment_needs in G. cbn [ps_jpre ps_an ps_j ps_x cf_jfixed cf_nfev pf_config] in G. rewrite app_length, Nat.add_1_r in G. exact G. }
    destruct (s_jfixed st) eqn:Ej; cbn [negb] in H.
    - destruct (s_j0 st) as [j|]; [|destruct (Z.leb_spec incs 0); [lia|discriminate]]. apply G in H. destruct H as (H1 & H2 & H3).
      split; [exact H1|]. split; [exact H2|]. intros _. exists j. split; [reflexivity|exact (H3 eq_refl)].
    - apply G in H. destruct H as (H1 & H2 & _). split; [exact H1|]. split; [exact H2|discriminate].
  Qed.

  (** Forces can only be evaluated with three loads per node. *)
  Lemma forces_need c ms V V0 a r : truss_ok c ms -> 2 <= length (c_labels c) -> sizes_ok c ms a -> loads_shape a ->
    equilibrium c V V0 false a = Ok r -> length (concat (a_forces a)) = 3 * length (c_labels c).
  Proof.
    intros Hok H2 Hsz [Sh1 Sh2] H. destruct r as [a' g]. pose proof (gequilibrium_sizes _ _ _ _ _ _ _ _ Hok Hsz H) as Hsz'.
    destruct (silent_quiet c) as (_ & _ & Q3 & _). pose proof (Q3 _ _ _ _ _ H) as ((_ & _ & _ & _ & Ec & Ef & _) & _).
    unfold equilibrium in H. apply bind_ok in H. destruct H as ([[a1 U] l] & Hp & H). apply bind_ok in H. destruct H as (a2 & Hl & H).
    apply bind_ok in H. destruct H as (s1 & B1 & H). apply bind_ok in H. destruct H as (gg & B2 & H). apply bind_ok in H. destruct H as (gr & _ & H).
    injection H as <- _. cbn [a_fconst a_forces set_g] in Ec, Ef. destruct Hsz' as (_ & _ & Lr & _). cbn [a_r set_g] in Lr.
    assert (Lv : length (map fopp (vflat (a_r a2))) = 3 * length (c_labels c)) by (rewrite map_length, vflat_len; lia).
    apply bcast2_map2 in B1; [|lia|rewrite Ec; exact Sh1]. destruct B1 as [L1 ->].
    assert (L2 : length (map2 fadd (map fopp (vflat (a_r a2))) (concat (a_fconst a2))) = 3 * length (c_labels c)) by (rewrite map2_len; lia).
    apply bcast2_map2 in B2; [|lia|rewrite map_length, Ef; exact Sh2]. destruct B2 as [L3 _]. rewrite map_length, Ef in L3. lia.
  Qed.

  Lemma silent_shape c a a' : silent c a a' -> loads_shape a -> loads_shape a'.
  Proof. intros ((_ & _ & _ & _ & E1 & E2 & _) & _). unfold loads_shape. rewrite E1, E2. auto. Qed.

  Lemma concat_len (l : list (list F)) q : (forall r, In r l -> length r = q) -> length (concat l) = length l * q.
  Proof. induction l as [|r l IH]; intros H; [reflexivity|]. cbn [concat length]. rewrite app_length, IH by (intros; apply H; cbn; auto). rewrite (H r) by (left; reflexivity). lia. Qed.

  Theorem run_needs argsortZ P m ns ms bs fs m1 u fuel m2 out :
    argsort_ok argsortZ -> described m ns ms bs fs -> session argsortF solve argsortZ P m m1 -> m_built m1 = Some u -> 1 <= u_ndof1 u ->
    run argsortF solve m1 fuel = Ok (m2, out) ->
    let st := m_set m1 in
    each_step (Z.to_nat (s_nsteps st)) (s_incs st) (fun _ => True) /\
    each_step (Z.to_nat (s_nsteps st)) (s_xlimit st) (fun _ => True) /\
    ((s_log st <= 1)%Z \/ s_j0 st = None) /\
    forall k incs, k < Z.to_nat (s_nsteps st) -> in_step (s_incs st) k incs -> (1 <= incs)%Z ->
      (forall b, In b ms -> complete b) /\
      (s_jpre st = false \/ s_jfixed st = true -> (1 <= s_nfev st)%Z) /\
      (s_jfixed st = true -> exists j, s_j0 st = Some j /\ (Z.abs j <= Z.of_nat (u_ndof1 u) + 1)%Z) /\
      (forall fh r, m_forces m1 = Some fh -> In r (e_rows fh) -> 3 * (k + 1) <= length r).
  Proof.
    intros HA Hd HS Eu Hn Hrun st.
    assert (Hlog : (s_log st <= 1)%Z \/ s_j0 st = None).
    { unfold run in Hrun. cbv zeta in Hrun. fold st in Hrun. destruct (Z.ltb_spec 1 (s_log st)); [|left; lia]. right.
      destruct (s_j0 st); [discriminate Hrun|reflexivity]. }
    destruct (Z.leb_spec (s_nsteps st) 0) as [L|L].
    { assert (E : Z.to_nat (s_nsteps st) = 0) by lia. rewrite E.
      split; [destruct (s_incs st); cbn; [auto|intros; lia]|]. split; [destruct (s_xlimit st); cbn; [auto|intros; lia]|]. split; [exact Hlog|intros; lia]. }
    destruct (run_ran_as _ _ _ _ _ _ Hrun L) as (logs & Hr). pose proof Hr as (_ & Hlen & _).
    destruct (session_logs argsortZ argsortF solve P m ns ms bs fs m1 fuel m2 out logs HA Hd HS Hr) as (c & D0 & D1 & w & u1 & Htr & H2 & Eu1 & En1 & _ & Hc & _ & fh & Ef & Lf & Hw & HH).
    assert (u1 = u) by congruence. subst u1. fold st in Hlen.
    assert (HL : forall k, k < Z.to_nat (s_nsteps st) -> exists lg, nth_error logs k = Some lg).
    { intros k Hk. destruct (nth_error logs k) eqn:E; [eauto|]. apply nth_error_None in E. lia. }
    split.
    { destruct (s_incs st) as [x|l] eqn:El; cbn; [auto|]. intros k Hk. destruct (HL k Hk) as (lg & E). destruct (HH k lg E) as (_ & (i & xl & pf & Hi & _) & _).
      fold st in Hi. rewrite El in Hi. eauto. }
    split.
    { destruct (s_xlimit st) as [x|l] eqn:El; cbn; [auto|]. intros k Hk. destruct (HL k Hk) as (lg & E). destruct (HH k lg E) as (_ & (i & xl & pf & _ & Hi & _) & _).
      fold st in Hi. rewrite El in Hi. eauto. }
    split; [exact Hlog|]. intros k incs Hk Hi Hp. destruct (HL k Hk) as (lg & E). destruct (HH k lg E) as (Hg & Hran & Hsh & prev & lpfs & Hst).
    destruct (step_ran_needs _ _ _ _ _ _ Hran Hi Hp) as (A1 & (uu & a1 & K & V & V0 & a2 & r & K1 & K2 & K3) & A3).
    split; [eapply stiffness_needs; [apply Htr|apply Htr|exact K1]|]. split; [exact A1|]. split.
    { intros Hj. destruct (A3 Hj) as (j & E1 & E2). exists j. split; [exact E1|]. destruct Hg as (_ & Hlen' & _). unfold reached_len in Hlen'. rewrite Hlen' in E2 by lia. lia. }
    intros fh' row Ef' Hrow. assert (fh' = fh) by congruence. subst fh'. rewrite (Hw row Hrow).
    assert (Hf : length (concat (a_forces a2)) = 3 * length (c_labels c)).
    { eapply forces_need; [exact Htr|exact H2| |eapply silent_shape; eassumption|exact K2]. destruct K3 as (_ & _ & K3). apply K3; [exact Htr|apply Hg]. }
    destruct K3 as ((_ & _ & _ & _ & _ & E2 & _) & _). rewrite E2 in Hf. destruct Hst as (_ & _ & E3 & _). rewrite E3 in Hf.
    rewrite (concat_len _ (min 3 (w - 3 * k))) in Hf.
    2:{ unfold columns. intros x Hx. apply in_map_iff in Hx. destruct Hx as (y & <- & Hy). rewrite firstn_length, skipn_length, (Hw y Hy). reflexivity. }
    unfold columns in Hf. rewrite map_length in Hf.
    assert (Lr : length (e_rows fh) = length (c_labels c)).
    { destruct (sound_session _ _ _ _ _ _ _ _ _ _ HA Hd HS) as (mb & Hb & Hs).
      destruct (build_reached _ _ _ _ _ _ _ HA Hd Hb) as (nhb & ehb & fhb & ub0 & ns' & Enb & Eeb & Efb & Eub0 & Hns' & _ & _ & Hfs & _).
      destruct Hs as (S1 & S2 & _ & S4 & _). destruct Hc as (nh & eh & En & _ & ->). assert (nhb = nh) by congruence. subst nhb. assert (fhb = fh) by congruence. subst fhb.
      rewrite Enb in Hns'. destruct Hns' as [Hl _]. rewrite Efb in Hfs. destruct Hfs as (_ & -> & _).
      unfold rows_for. rewrite !map_length. cbn [c_labels ctx_of]. rewrite Hl, map_length. reflexivity. }
    rewrite Lr in Hf. destruct (Nat.min_spec 3 (w - 3 * k)) as [[? E4]|[? E4]]; rewrite E4 in Hf; nia.
  Qed.
End Need.
