(** * Lemmas behind the properties of run (any number type) *)
From Coq Require Import List ZArith Bool Arith Lia Permutation Sorting.Sorted.
Import ListNotations.
From Verif Require Import Num Vec Handlers Material Analysis Truss Equil Solver Run ListFacts SpecMech SpecBuild
  BuildFacts BuildProps EditFacts EquilFacts SpecState FrameFacts EvalFacts SpecSolver SolverFacts PathFacts SpecRun RunFacts
  RecFacts ReachFacts SessionFacts.

Lemma bcast2_map2 {A B C} (f : A -> B -> C) a b r :
  bcast2 f a b = Ok r -> 2 <= length a -> length b <> 1 -> length b = length a /\ r = map2 f a b.
Proof.
  unfold bcast2. intros H Ha Hb. destruct (Nat.eqb_spec (length a) (length b)) as [E|E].
  - injection H as <-. auto.
  - destruct a as [|x [|y a]]; cbn in Ha; try lia. destruct b as [|z [|w b]]; cbn in Hb; try lia; discriminate.
Qed.

Lemma nth_map2 {A B C} (f : A -> B -> C) la lb k da db dc :
  length la = length lb -> k < length la -> nth k (map2 f la lb) dc = f (nth k la da) (nth k lb db).
Proof.
  revert lb k. induction la as [|x la IH]; intros [|y lb] k Hl Hk; cbn in *; try lia.
  destruct k; [reflexivity|]. apply IH; lia.
Qed.

Lemma concat_not_one {A} (rows : list (list A)) n : 2 <= length rows ->
  (forall r, In r rows -> length r = n) -> length (concat rows) <> 1.
Proof.
  intros H2 H. rewrite (concat_length_w n rows H). intros E.
  apply Nat.eq_mul_1 in E. lia.
Qed.

Section Props.
  Context {F : Type} `{NF : Num F}.
  Variable argsortZ : list Z -> list nat.
  Variable argsortF : list F -> list nat.
  Variable solve : list (list F) -> list F -> list F.
  Implicit Types (c : ctx F) (a : analysis F).

  Lemma run_ran_as m fuel m' out :
    run argsortF solve m fuel = Ok (m', out) -> (0 < s_nsteps (m_set m))%Z ->
    exists logs, ran_as argsortF solve m fuel m' out logs.
  Proof.
    intros H Hn. pose proof H as H0. apply run_ok in H0.
    destruct H0 as (u & nh & eh & fh & r0 & rest & u' & A1 & A2 & A3 & A4 & A5 & Em & A7 & A8 & HH).
    destruct (Z.leb_spec (s_nsteps (m_set m)) 0); [lia|].
    destruct HH as (logs & B1 & B2 & B3 & B4 & B5 & B6). exists logs.
    split; [exact H|]. split; [lia|]. split; [intros ->; cbn in B1; lia|].
    exists u, nh, eh, fh, r0, rest, u'. subst m'. cbn [m_built].
    repeat match goal with |- _ /\ _ => split end; auto.
  Qed.

  (** Shape of the loads: never broadcast. *)
  Definition loads_shape a : Prop :=
    length (concat (a_fconst a)) <> 1 /\ length (concat (a_forces a)) <> 1.

  Lemma start_shape rows lpfs k prev an w :
    step_starts rows lpfs k prev an -> 2 <= length rows -> (forall r, In r rows -> length r = w) ->
    loads_shape an.
  Proof.
    intros (_ & (Hl & Hs) & Hf & _) H2 Hw.
    assert (Hc : forall r, In r rows -> length (firstn 3 (skipn (3 * k) r)) = min 3 (w - 3 * k)).
    { intros r Hr. rewrite firstn_length, skipn_length, (Hw r Hr). reflexivity. }
    split.
    - apply concat_not_one with (min 3 (w - 3 * k)); [lia|]. intros r Hr. apply In_nth_error in Hr.
      destruct Hr as [i Hi]. assert (i < length rows) by (rewrite <- Hl; apply nth_error_Some; congruence).
      destruct (nth_error rows i) as [row|] eqn:E; [|apply nth_error_None in E; lia].
      destruct (Hs _ _ E) as (fr & E1 & E2 & _). assert (fr = r) by congruence. subst fr. rewrite E2.
      apply Hc. eapply nth_error_In, E.
    - rewrite Hf. apply concat_not_one with (min 3 (w - 3 * k)); [unfold columns; rewrite map_length; lia|].
      intros r Hr. unfold columns in Hr. apply in_map_iff in Hr. destruct Hr as (row & <- & Hr). auto.
  Qed.

  Lemma shape_same a a' : same_setup a a' -> loads_shape a -> loads_shape a'.
  Proof. intros (_ & _ & _ & _ & E1 & E2 & _). unfold loads_shape. now rewrite E1, E2. Qed.

  (** An accepted increment. *)
  Definition in_balance (ftol : F) x0 x a : Prop :=
    exists gr dj xj x0j,
      gather (a_g a) (a_DOF1 a) = Ok gr /\
      py_get (a_dVmax a) (Z.abs (a_j a) - 1) = Ok dj /\
      py_get x (Z.abs (a_j a) - 1) = Ok xj /\ py_get x0 (Z.abs (a_j a) - 1) = Ok x0j /\
      fltb (fnorm (map fopp gr ++ [fsub xj (fadd x0j (fmul dj (fofZ (Z.sgn (a_j a)))))])) ftol = true.

  Lemma vflat_len (l : list (v3 F)) : length (vflat l) = 3 * length l.
  Proof. unfold vflat. induction l as [|v l IH]; [reflexivity|]. cbn [flat_map length]. rewrite app_length, IH. cbn. lia. Qed.

  Lemma kacc_balance c cfg ms x0 a0 x a :
    truss_ok c ms -> 2 <= length (c_labels c) -> sizes_ok c ms a0 -> loads_shape a0 ->
    length x0 = S (c_ndof1 c) -> 1 <= c_ndof1 c ->
    kacc solve c cfg x0 a0 x a -> residual_is a /\ in_balance (cf_ftol cfg) x0 x a.
  Proof.
    intros Hok H2 Hsz Hsh Hx0 H1 H. pose proof (kacc_same _ _ _ _ _ _ _ H) as S.
    assert (Hsz' : sizes_ok c ms a) by (eapply (kany_sizes solve c cfg true); eauto; left; exact H).
    destruct (kacc_residual _ _ _ _ _ _ _ _ Hok Hsz Hx0 H1 H)
      as (gr & j & dj & xj & x0j & s1 & R1 & R2 & R3 & -> & R5 & R6 & R7 & R8). cbv zeta in R8.
    split; [|exists gr, dj, xj, x0j; auto].
    destruct (shape_same _ _ S Hsh) as [Sh1 Sh2].
    destruct Hsz' as (LU & _ & Lr & _).
    assert (Lv : length (map fopp (vflat (a_r a))) = 3 * length (a_U a)) by (rewrite map_length, vflat_len; lia).
    apply bcast2_map2 in R2; [|lia|exact Sh1]. destruct R2 as [L1 ->].
    assert (L2 : length (map2 fadd (map fopp (vflat (a_r a))) (concat (a_fconst a))) = 3 * length (a_U a))
      by (rewrite map2_len; lia).
    apply bcast2_map2 in R3; [|lia|rewrite map_length; exact Sh2]. destruct R3 as [L3 Eg]. unfold residual_is. rewrite Eg. clear Eg.
    rewrite map_length in L3. split; [rewrite map2_len; rewrite ?map_length; lia|]. intros k Hk.
    rewrite (nth_map2 _ _ _ k f0 (fmul (a_lpf a) f0)) by (rewrite ?map_length; lia).
    rewrite (nth_map2 _ _ _ k (fopp f0) f0) by lia. rewrite !map_nth. reflexivity.
  Qed.

  (** The kinds of records together with an invariant of control component and
      step limits. *)
  Lemma quiet_I c (I : Z -> list F -> Prop) : quiet (equilibrium c) (stiffness c) I (silent c).
  Proof.
    destruct (silent_quiet c) as (Q1 & Q2 & Q3 & Q4 & Q5 & Q6 & Q7).
    exact (conj Q1 (conj Q2 (conj Q3 (conj Q4 (conj Q5 (conj (fun j d a _ => Q6 j d a Logic.I) Q7)))))).
  Qed.

  Lemma f_ext_j c x0 j xmax w x a a' v : f_ext (equilibrium c) x0 j xmax w x a = Ok (a', v) ->
    a_j a' = j /\ a_dVmax a' = a_dVmax a.
  Proof.
    intros H. apply commit_same in H. destruct H as (gr & xj & Hg & _).
    pose proof (equilibrium_parts _ _ _ _ _ _ _ Hg) as (U & U0 & a2 & _ & _ & Hl & _ & _ & Ea).
    pose proof (elem_loop_frame _ _ _ _ _ _ _ Hl) as (Fx & _).
    rewrite Ea. cbn. unfold efix in Fx. cbn in Fx.
    repeat match type of Fx with _ /\ _ => let H := fresh "F" in destruct Fx as [H Fx] end. split; congruence.
  Qed.

  Lemma trace_last {S} (fn : list F -> S -> res (S * list F)) dfn ts : forall x s t,
    trace solve fn dfn x s (ts ++ [t]) -> exists s2, fn (it_x t) s2 = Ok (it_s t, it_f t).
  Proof.
    intros x s t H. destruct (trace_last_inv solve fn dfn (fun _ => True) (fun _ _ _ _ _ _ => Logic.I) (fun _ _ _ _ _ _ => Logic.I) ts x s t Logic.I H)
      as (s2 & _ & E). eauto.
  Qed.

  Lemma step_kinds_I c st fuel k lg (I : Z -> list F -> Prop) :
    (forall incs xl, let cfg := pf_config st xl incs in
       let n := length (a_Ured (lg_start lg) ++ [f0]) in
       keeps_I solve argsortF (equilibrium c) (stiffness c) cfg (expand_dxmax n (DxVec [s_du st; s_dlpf st])) I /\
       I (first_j cfg n (s_j0 st)) (expand_dxmax n (DxVec [s_du st; s_dlpf st]))) ->
    step_ran argsortF solve c st fuel k lg ->
    exists incs xl recs, let cfg := pf_config st xl incs in
      let x0 := a_Ured (lg_start lg) ++ [f0] in
      good_part lg recs /\
      along (fun x0 a0 x a => (kacc solve c cfg x0 a0 x a /\ I (a_j a) (a_dVmax a)) \/
                              kskp solve c cfg (s_jpre st) x0 a0 x a) x0 (lg_start lg) recs /\
      (lg_recs lg = recs \/ exists x a, lg_recs lg = recs ++ [(x, a)] /\ I (a_j a) (a_dVmax a) /\
         kfld solve c cfg (fst (last recs (x0, lg_start lg))) (snd (last recs (x0, lg_start lg))) x a).
  Proof.
    intros HI (incs & xl & pf & _ & _ & H & Hres & Hout). exists incs, xl. destruct (HI incs xl) as [HK H0]. clear HI.
    eapply (pathfollow_ok solve argsortF (equilibrium c) (stiffness c) (pf_config st xl incs) _
              I (silent c) (s_jpre st)) in H;
      [|exact HK|apply quiet_I|reflexivity|exact H0|auto].
    cbv zeta in *. destruct H as (recs & Hr & _ & _ & _ & H).
    assert (Hgood : forall x0 a0 rs,
      good solve (equilibrium c) (stiffness c) (pf_config st xl incs) I (silent c) (s_jpre st) x0 a0 rs ->
      along (fun x0 a0 x a => (kacc solve c (pf_config st xl incs) x0 a0 x a /\ I (a_j a) (a_dVmax a)) \/
                              kskp solve c (pf_config st xl incs) (s_jpre st) x0 a0 x a) x0 a0 rs).
    { intros x0 a0 rs G. induction G as [|x0 a0 x a rest [Ha|Ha] G IHG]; cbn [along]; auto; split; auto.
      - left. destruct Ha as (j & dxmax & xmax & xs & nfev & an & ts & t & an2 & v & A1 & A2 & A3 & A4 & A5 & A6 & A7 & A8 & A9 & A10 & A11).
        split; [exists j, dxmax, xmax, xs, nfev, an, ts, t, an2, v; repeat match goal with |- _ /\ _ => split end; auto; tauto|].
        apply f_ext_j in A10. cbn in A10. destruct A10 as [E1 E2]. subst a. cbn. rewrite E1, E2. exact A1.
      - right. destruct Ha as (B1 & B2 & j & dxmax & xmax & an & t & A1 & A2 & A3 & A4 & A5 & A6 & A7).
        split; [exact B1|]. split; [exact B2|]. exists j, dxmax, xmax, an, t. repeat match goal with |- _ /\ _ => split end; auto. }
    assert (Er : lg_recs lg = recs) by congruence.
    destruct H as [(Hg & Hn & _)|(rs & x' & a & ms & e & E & Hg & Hf & Ho & He & _)].
    - exists recs. split; [left; split; [exact Er|rewrite <- Hout; exact Hn]|]. auto.
    - exists rs. split.
      + right. exists (x', a), ms, e. repeat split; congruence.
      + split; [auto|]. right. exists x', a. split; [congruence|].
        destruct Hf as (j & dxmax & xmax & xs & nfev & an & ts & t & A1 & A2 & A3 & A4 & A5 & A6 & A7 & A8 & A9).
        split.
        * pose proof A5 as (xj & dj & _ & _ & _ & Ht & _). apply trace_last in Ht. destruct Ht as [s2 Ht].
          apply f_ext_j in Ht. subst a. cbn. rewrite (proj1 Ht). exact A1.
        * exists j, dxmax, xmax, xs, nfev, an, ts, t. repeat match goal with |- _ /\ _ => split end; auto; tauto.
  Qed.

  (** An accepted record is an evaluation at the recorded vector. *)
  Lemma kacc_eval c cfg ms x0 a0 x a : truss_ok c ms -> sizes_ok c ms a0 -> kacc solve c cfg x0 a0 x a ->
    exists an1 an2 gr, sizes_ok c ms an1 /\ same_setup a0 an1 /\ a_state an1 = a_state a0 /\
      equilibrium c x x0 true an1 = Ok (an2, gr) /\ a = recorded x an2.
  Proof.
    intros Hok Hsz (j & dxmax & xmax & xs & nfev & an & ts & t & an2 & v & _ & _ & _ & (S & E & Z) & _ & _ & _ & _ & _ & Hf & ->).
    apply commit_same in Hf. destruct Hf as (gr & xj & Hg & _).
    exists (set_j j (set_dVmax dxmax (it_s t))), an2, gr. split; [exact (Z ms Hok Hsz)|].
    split; [exact S|]. split; [exact E|]. split; [exact Hg|reflexivity].
  Qed.

  (** Facts shared by the step logs of a session's run. *)
  Lemma session_logs P m ns ms bs fs m1 fuel m2 out logs :
    argsort_ok argsortZ -> described m ns ms bs fs -> session argsortF solve argsortZ P m m1 ->
    ran_as argsortF solve m1 fuel m2 out logs ->
    exists c D0 D1 w u1, truss_ok c ms /\ 2 <= length (c_labels c) /\ m_built m1 = Some u1 /\
      c_ndof1 c = u_ndof1 u1 /\ c_nstatev c = s_nstatev (m_set m1) /\
      (exists nh eh, m_nodes m1 = Some nh /\ m_elems m1 = Some eh /\ c = ctx_of m1 u1 nh eh) /\
      (exists mb ub, build argsortZ m = Ok mb /\ m_built mb = Some ub /\ D0 = a_DOF0 (u_an ub) /\ D1 = a_DOF1 (u_an ub)) /\
      exists fh, m_forces m1 = Some fh /\ 2 <= length (e_rows fh) /\
        (forall r, In r (e_rows fh) -> length r = w) /\
        forall k lg, nth_error logs k = Some lg ->
          good_log c ms D0 D1 lg /\ step_ran argsortF solve c (m_set m1) fuel k lg /\ loads_shape (lg_start lg) /\
          exists prev lpfs, step_starts (e_rows fh) lpfs k prev (lg_start lg).
  Proof.
    intros HA Hd S (Hrun & Hlen & Hne & HH).
    destruct (sound_session _ _ _ _ _ _ _ _ _ _ HA Hd S) as (mb & Hb & Hs).
    destruct (build_reached _ _ _ _ _ _ _ HA Hd Hb)
      as (nhb & ehb & fh & ub & ns' & En & Ee & Ef & Eu & Hns' & Hp & _ & Hfa & Htr & _).
    destruct Hs as (S1 & S2 & S3 & S4 & S5 & nh1 & eh1 & ub1 & u1 & En1 & Ee1 & Eub1 & Eu1 & U1 & U2 & G). cbv zeta in G.
    assert (nh1 = nhb) by congruence. assert (eh1 = ehb) by congruence. assert (ub1 = ub) by congruence. subst nh1 eh1 ub1.
    destruct G as (Ec & Htr' & Hn1 & Hnd & Hre & Hlen1 & HR).
    destruct HH as (u & nh & eh & fh' & r0 & rest & u' & B1 & B2 & B3 & B4 & B5 & B6 & Hst & _).
    assert (u = u1) by congruence. assert (nh = nhb) by congruence. assert (eh = ehb) by congruence.
    assert (fh' = fh) by congruence. subst u nh eh fh'. rewrite Ec in Hst.
    rewrite Ef in Hfa. destruct Hfa as (F1 & F2 & F3). rewrite Forall_forall in F3.
    assert (Hrows : 2 <= length (e_rows fh)).
    { rewrite F2. unfold rows_for. rewrite !map_length, (Permutation_length Hp). apply Hd. }
    assert (Hlab : 2 <= length (c_labels (ctx_of mb ub nhb ehb))).
    { cbn [ctx_of c_labels]. rewrite En in Hns'. destruct Hns' as [-> _]. rewrite map_length, (Permutation_length Hp). apply Hd. }
    exists (ctx_of mb ub nhb ehb), (a_DOF0 (u_an ub)), (a_DOF1 (u_an ub)), (e_width fh), u1.
    split; [exact Htr|]. split; [exact Hlab|]. split; [exact Eu1|]. split; [cbn; congruence|]. split; [cbn; congruence|].
    split; [exists nhb, ehb; repeat match goal with |- _ /\ _ => split end; congruence|].
    split; [exists mb, ub; auto|].
    exists fh. split; [exact B4|]. split; [exact Hrows|]. split; [exact F3|].
    assert (Hgood : forall lg, In lg logs -> good_log (ctx_of mb ub nhb ehb) ms (a_DOF0 (u_an ub)) (a_DOF1 (u_an ub)) lg).
    { eapply steps_good; [exact Htr| | |exact Hst].
      - eapply reached_setup; [exact Hre|..]; reflexivity.
      - exact Hlen1. }
    clear - Hst Hgood Hrows F3.
    assert (G : forall logs k0 prev lpfs pl,
      steps_from argsortF solve (ctx_of mb ub nhb ehb) (m_set m1) (e_rows fh) fuel k0 prev lpfs pl logs ->
      forall k lg, nth_error logs k = Some lg ->
        step_ran argsortF solve (ctx_of mb ub nhb ehb) (m_set m1) fuel (k0 + k) lg /\ 
        exists prev' lpfs', step_starts (e_rows fh) lpfs' (k0 + k) prev' (lg_start lg)).
    { clear. induction logs as [|l logs IH]; intros k0 prev lpfs pl H k lg Hk; [destruct k; discriminate|].
      cbn [steps_from] in H. destruct H as (Hs & Hr & Hrest). destruct k as [|k]; cbn [nth_error] in Hk.
      - injection Hk as <-. rewrite Nat.add_0_r. split; [exact Hr|]. eauto.
      - replace (k0 + S k) with (S k0 + k) by lia. eapply IH; eassumption. }
    intros k lg Hk. destruct (G _ _ _ _ _ Hst k lg Hk) as (Hr & prev' & lpfs' & Hs).
    split; [apply Hgood; eapply nth_error_In, Hk|]. split; [exact Hr|]. split; [eapply start_shape; eassumption|]. eauto.
  Qed.

  (** Residual and convergence of the records of a step. *)
  Lemma records_balance P m ns ms bs fs m1 fuel m2 out logs :
    argsort_ok argsortZ -> described m ns ms bs fs -> session argsortF solve argsortZ P m m1 ->
    ran_as argsortF solve m1 fuel m2 out logs ->
    (forall u, m_built m1 = Some u -> 1 <= u_ndof1 u) ->
    forall lg, In lg logs -> exists recs, good_part lg recs /\
      along (fun x0 a0 x a => (residual_is a /\ in_balance (pow10neg (s_ftol (m_set m1))) x0 x a) \/
               (s_jpre (m_set m1) = true /\ s_jfixed (m_set m1) = false /\ x = x0))
            (a_Ured (lg_start lg) ++ [f0]) (lg_start lg) recs.
  Proof.
    intros HA Hd HS Hran H1 lg Hin.
    destruct (session_logs _ _ _ _ _ _ _ _ _ _ _ HA Hd HS Hran)
      as (c & D0 & D1 & w & u1 & Htr & Hlab & Eu & Hnd & _ & _ & _ & fh & _ & _ & _ & Hlogs).
    specialize (H1 _ Eu). apply In_nth_error in Hin. destruct Hin as [k Hk].
    destruct (Hlogs _ _ Hk) as ((Hr & Hl & Hrecs & _) & Hrn & Hsh & _).
    destruct (step_kinds _ _ _ _ _ _ _ Hrn) as (incs & xl & recs & Hg & Hal & _). cbv zeta in *.
    exists recs. split; [exact Hg|].
    eapply (along_impl _ _ (fun x a => reached c ms D0 D1 a /\ length x = S (c_ndof1 c) /\ loads_shape a)) in Hal.
    - apply Hal.
    - split; [exact Hr|]. split; [rewrite app_length, (Hl ltac:(lia)); cbn; lia|exact Hsh].
    - intros x0 a0 x a (Hr0 & Hx0 & Hs0) Hk2.
      assert (Hka : kany solve c (pf_config (m_set m1) xl incs) (s_jpre (m_set m1)) x0 a0 x a) by (unfold kany; tauto).
      split.
      + split; [eapply reached_kind; eassumption|]. split; [rewrite (kany_length _ _ _ _ _ _ _ _ Hka); lia|].
        eapply shape_same; [eapply kany_same, Hka|exact Hs0].
      + destruct Hk2 as [Hk2|Hk2]; [left|right].
        * refine (kacc_balance c _ ms x0 a0 x a Htr Hlab _ Hs0 Hx0 _ Hk2); [apply Hr0|lia].
        * pose proof Hk2 as (Hj & Hf & _). apply kskp_same in Hk2. tauto.
  Qed.

  (** The laws do not use the strain increment. *)
  Lemma umat_de u e de de' mat sv : umat u e de mat sv = umat u e de' mat sv.
  Proof. destruct u; reflexivity. Qed.

  (** Displacement fields of the records of a step. *)
  Lemma records_active P m ns ms bs fs m1 fuel m2 out logs :
    argsort_ok argsortZ -> described m ns ms bs fs -> session argsortF solve argsortZ P m m1 ->
    ran_as argsortF solve m1 fuel m2 out logs ->
    (forall u, m_built m1 = Some u -> 1 <= u_ndof1 u) ->
    forall lg, In lg logs ->
      along (fun x0 a0 x a => active a \/
               (s_jpre (m_set m1) = true /\ s_jfixed (m_set m1) = false /\ x = x0))
            (a_Ured (lg_start lg) ++ [f0]) (lg_start lg) (lg_recs lg).
  Proof.
    intros HA Hd HS Hran H1 lg Hin.
    destruct (session_logs _ _ _ _ _ _ _ _ _ _ _ HA Hd HS Hran)
      as (c & D0 & D1 & w & u1 & Htr & Hlab & Eu & Hnd & _ & _ & _ & fh & _ & _ & _ & Hlogs).
    specialize (H1 _ Eu). apply In_nth_error in Hin. destruct Hin as [k Hk].
    destruct (Hlogs _ _ Hk) as ((Hr & Hl & Hrecs & _) & Hrn & Hsh & _).
    apply step_any in Hrn. destruct Hrn as (incs & xl & Hal).
    eapply (along_impl _ _ (fun x a => reached c ms D0 D1 a /\ length x = S (c_ndof1 c))) in Hal.
    - apply Hal.
    - split; [exact Hr|]. rewrite app_length, (Hl ltac:(lia)). cbn. lia.
    - intros x0 a0 x a (Hr0 & Hx0) Hka. split.
      + split; [eapply reached_kind; eassumption|]. rewrite (kany_length _ _ _ _ _ _ _ _ Hka); lia.
      + pose proof Hr0 as ((_ & _ & _ & _ & _ & _ & _ & _ & Hnd1 & _ & Hn1 & _) & _).
        destruct Hka as [Hk2|[Hk2|Hk2]].
        * left. eapply kany_active; try eassumption; try lia; left; exact Hk2.
        * right. pose proof Hk2 as (Hj & Hf & _). apply kskp_same in Hk2. tauto.
        * left. eapply kany_active; try eassumption; try lia; right; exact Hk2.
  Qed.

  (** State variables of the records of a step. *)
  Lemma records_state P m ns ms bs fs m1 fuel m2 out logs :
    argsort_ok argsortZ -> described m ns ms bs fs -> session argsortF solve argsortZ P m m1 ->
    ran_as argsortF solve m1 fuel m2 out logs -> (0 < s_nstatev (m_set m1))%Z ->
    forall lg, In lg logs -> exists recs, good_part lg recs /\
      along (fun x0 a0 x a => state_updated ms a0 a \/
               (s_jpre (m_set m1) = true /\ s_jfixed (m_set m1) = false /\ x = x0 /\ a_state a = a_state a0))
            (a_Ured (lg_start lg) ++ [f0]) (lg_start lg) recs /\
      (lg_recs lg = recs \/ exists x a, lg_recs lg = recs ++ [(x, a)] /\
         a_state a = a_state (snd (last recs (x, lg_start lg)))).
  Proof.
    intros HA Hd HS Hran Hn lg Hin.
    destruct (session_logs _ _ _ _ _ _ _ _ _ _ _ HA Hd HS Hran)
      as (c & D0 & D1 & w & u1 & Htr & Hlab & Eu & Hnd & Hnsv & _ & _ & fh & _ & _ & _ & Hlogs).
    apply In_nth_error in Hin. destruct Hin as [k Hk].
    destruct (Hlogs _ _ Hk) as ((Hr & Hl & Hrecs & _) & Hrn & Hsh & _).
    destruct (step_kinds _ _ _ _ _ _ _ Hrn) as (incs & xl & recs & Hg & Hal & Hf). cbv zeta in *.
    exists recs. split; [exact Hg|]. split.
    - eapply (along_impl _ _ (fun x a => reached c ms D0 D1 a)) in Hal; [apply Hal|exact Hr|].
      intros x0 a0 x a Hr0 Hk2.
      assert (Hka : kany solve c (pf_config (m_set m1) xl incs) (s_jpre (m_set m1)) x0 a0 x a) by (unfold kany; tauto).
      split; [eapply reached_kind; eassumption|]. destruct Hk2 as [Hk2|Hk2]; [left|right].
      + pose proof Hr0 as (Hsz & _). pose proof Hsz as (_ & _ & _ & _ & _ & _ & _ & _ & _ & _ & _ & Hsv).
        destruct (Hsv ltac:(lia)) as (sv & Esv & _).
        destruct (kacc_state _ _ _ _ _ _ _ _ _ Htr Hsz ltac:(lia) Esv Hk2) as (sv' & E1 & E2 & E3).
        exists sv, sv'. repeat match goal with |- _ /\ _ => split end; auto. intros i b Hb.
        destruct (E3 i b Hb) as (row & row' & lam & st & de & ds & G1 & G2 & G3 & G4 & G5).
        exists row, row', lam, st, ds. repeat match goal with |- _ /\ _ => split end; auto.
        intros de'. rewrite <- G5. apply umat_de.
      + pose proof Hk2 as (Hj & Hfx & _). apply kskp_same in Hk2. tauto.
    - destruct Hf as [Hf|(x & a & E & Hf)]; [left; exact Hf|right]. exists x, a. split; [exact E|].
      apply kfld_same in Hf. rewrite (proj2 Hf). f_equal. apply last_snd.
  Qed.

  (** All facts about the records of a step together. *)
  Lemma records_all P m ns ms bs fs m1 fuel m2 out logs (I : Z -> list F -> Prop) :
    argsort_ok argsortZ -> described m ns ms bs fs -> session argsortF solve argsortZ P m m1 ->
    ran_as argsortF solve m1 fuel m2 out logs ->
    (forall u, m_built m1 = Some u -> 1 <= u_ndof1 u) ->
    exists u1 nh eh mb ub, m_built m1 = Some u1 /\ m_nodes m1 = Some nh /\ m_elems m1 = Some eh /\
      build argsortZ m = Ok mb /\ m_built mb = Some ub /\
      let c := ctx_of m1 u1 nh eh in truss_ok c ms /\
      ((forall incs xl, let cfg := pf_config (m_set m1) xl incs in
       let n := S (u_ndof1 u1) in
       keeps_I solve argsortF (equilibrium c) (stiffness c) cfg (expand_dxmax n (DxVec [s_du (m_set m1); s_dlpf (m_set m1)])) I /\
       I (first_j cfg n (s_j0 (m_set m1))) (expand_dxmax n (DxVec [s_du (m_set m1); s_dlpf (m_set m1)]))) ->
      forall lg, In lg logs -> exists recs, good_part lg recs /\
      along (fun x0 a0 x a =>
        (residual_is a /\ in_balance (pow10neg (s_ftol (m_set m1))) x0 x a /\ I (a_j a) (a_dVmax a) /\
         length (a_U a) = length (n_labels nh) /\ length (a_r a) = length (n_labels nh) /\
         a_DOF0 a = a_DOF0 (u_an ub) /\ a_DOF1 a = a_DOF1 (u_an ub) /\
         exists an1 an2 gr, sizes_ok c ms an1 /\ a_state an1 = a_state a0 /\
           equilibrium c x x0 true an1 = Ok (an2, gr) /\ a = recorded x an2) \/
        (s_jpre (m_set m1) = true /\ s_jfixed (m_set m1) = false /\ x = x0))
        (a_Ured (lg_start lg) ++ [f0]) (lg_start lg) recs /\
      (lg_recs lg = recs \/ exists x a, lg_recs lg = recs ++ [(x, a)] /\ I (a_j a) (a_dVmax a))).
  Proof.
    intros HA Hd HS Hran H1.
    destruct (session_logs _ _ _ _ _ _ _ _ _ _ _ HA Hd HS Hran)
      as (c & D0 & D1 & w & u1 & Htr & Hlab & Eu & Hnd & _ & (nh & eh & En & Ee & Ec) & (mb & ub & Eb & Eub & ED0 & ED1) & fh & _ & _ & _ & Hlogs).
    specialize (H1 _ Eu). exists u1, nh, eh, mb, ub. do 5 (split; [assumption|]). cbv zeta. rewrite <- Ec.
    split; [exact Htr|]. intros HI lg Hin. apply In_nth_error in Hin. destruct Hin as [k Hk].
    destruct (Hlogs _ _ Hk) as ((Hr & Hl & Hrecs & _) & Hrn & Hsh & _).
    assert (El : length (a_Ured (lg_start lg) ++ [f0]) = S (c_ndof1 c)) by (rewrite app_length, (Hl ltac:(lia)); cbn; lia).
    eapply (step_kinds_I c _ _ _ lg I) in Hrn; [|intros incs xl; cbv zeta; rewrite El, Hnd; apply HI].
    destruct Hrn as (incs & xl & recs & Hg & Hal & Hlast). cbv zeta in *. exists recs. split; [exact Hg|].
    split; [|destruct Hlast as [Hlast|(x & a & E & Hi & _)]; [now left|right; exists x, a; auto]].
    eapply (along_impl _ _ (fun x a => reached c ms D0 D1 a /\ length x = S (c_ndof1 c) /\ loads_shape a)) in Hal.
    - apply Hal.
    - split; [exact Hr|]. split; [exact El|exact Hsh].
    - intros x0 a0 x a (Hr0 & Hx0 & Hs0) Hk2.
      assert (Hka : kany solve c (pf_config (m_set m1) xl incs) (s_jpre (m_set m1)) x0 a0 x a) by (unfold kany; tauto).
      assert (Hra : reached c ms D0 D1 a) by (eapply reached_kind; eassumption).
      split.
      + split; [exact Hra|]. split; [rewrite (kany_length _ _ _ _ _ _ _ _ Hka); lia|].
        eapply shape_same; [eapply kany_same, Hka|exact Hs0].
      + destruct Hk2 as [(Hk2 & Hi)|Hk2]; [left|right].
        * pose proof Hr0 as (Hsz & _).
          destruct (kacc_balance c _ ms x0 a0 x a Htr Hlab Hsz Hs0 Hx0 ltac:(lia) Hk2) as [B1 B2].
          destruct (kacc_eval c _ ms x0 a0 x a Htr Hsz Hk2) as (an1 & an2 & gr & E1 & _ & E2 & E3 & E4).
          destruct Hra as ((L1 & _ & L2 & _) & HD0 & HD1 & _).
          replace (n_labels nh) with (c_labels c) by (rewrite Ec; reflexivity).
          repeat match goal with |- _ /\ _ => split end; auto; try congruence.
          exists an1, an2, gr. auto.
        * pose proof Hk2 as (Hj & Hf & _). apply kskp_same in Hk2. tauto.
  Qed.

  (** ** The steps of a run *)
  Lemma ends_length : forall (logs : list (step_log F)) pl, length (ends pl logs) = length logs.
  Proof. induction logs as [|lg logs IH]; intros pl; cbn; auto. Qed.

  Lemma steps_nth c st rows fuel : forall logs k0 prev lpfs pl,
    steps_from argsortF solve c st rows fuel k0 prev lpfs pl logs ->
    forall k lg, nth_error logs k = Some lg ->
    exists prev', step_starts rows (lpfs ++ firstn k (ends pl logs)) (k0 + k) prev' (lg_start lg) /\
      step_ran argsortF solve c st fuel (k0 + k) lg /\
      match k with
      | 0 => prev' = prev
      | S k' => exists lgp, nth_error logs k' = Some lgp /\ prev' = handed_over (lg_final lgp)
      end.
  Proof.
    induction logs as [|l logs IH]; intros k0 prev lpfs pl H k lg Hk; [destruct k; discriminate|].
    cbn [steps_from] in H. destruct H as (Hs & Hr & Hrest). destruct k as [|k]; cbn [nth_error] in Hk.
    - injection Hk as <-. exists prev. rewrite Nat.add_0_r. cbn [firstn]. rewrite app_nil_r. auto.
    - destruct (IH _ _ _ _ Hrest _ _ Hk) as (prev' & G1 & G2 & G3). exists prev'.
      replace (k0 + S k) with (S k0 + k) by lia. cbn [ends firstn]. rewrite <- app_assoc in G1. cbn [app] in G1.
      split; [exact G1|]. split; [exact G2|]. destruct k as [|k].
      + exists l. split; [reflexivity|exact G3].
      + exact G3.
  Qed.

  Lemma history_app l l' row s d : s <= length l -> history (l ++ l') row s d = history l row s d.
  Proof.
    intros H. unfold history. assert (G : forall n s0 (x : F), s0 + n <= length l ->
      fold_left (fun x t => fadd x (fmul (nth t (l ++ l') f0) (nth (3 * t + d) row f0))) (seq s0 n) x =
      fold_left (fun x t => fadd x (fmul (nth t l f0) (nth (3 * t + d) row f0))) (seq s0 n) x).
    { clear. induction n as [|n IH]; intros s0 x H; [reflexivity|]. cbn [seq fold_left].
      rewrite app_nth1 by lia. apply IH. lia. }
    apply (G s 0 f0). lia.
  Qed.

  Lemma superposed_app rows l l' s f : s <= length l -> superposed rows l s f <-> superposed rows (l ++ l') s f.
  Proof.
    intros H. unfold superposed. split; intros (H1 & H2); split; auto; intros i row Hi;
      destruct (H2 i row Hi) as (fr & E1 & E2 & E3); exists fr; repeat split; auto; intros d Hd.
    - rewrite history_app by exact H. auto.
    - rewrite <- (history_app l l') by exact H. auto.
  Qed.

  (** The load factors of the first [k] steps are those of the whole run. *)
  Lemma superposed_firstn rows l k f : k <= length l -> superposed rows (firstn k l) k f -> superposed rows l k f.
  Proof.
    intros H Hs. rewrite <- (firstn_skipn k l). apply superposed_app; [rewrite firstn_length; lia|exact Hs].
  Qed.

  (** ** Settings *)
  Lemma foldM_ext2 {A B} (f g : B -> A -> res B) l : (forall b x, f b x = g b x) -> forall b, foldM f l b = foldM g l b.
  Proof. intros H. induction l as [|x l IH]; intros b; [reflexivity|]. cbn [foldM]. rewrite H. destruct (g b x); cbn; auto. Qed.

  Lemma run_j0 m fuel j : s_jfixed (m_set m) = false -> (s_log (m_set m) <= 1)%Z ->
    run argsortF solve (with_settings (with_j0 j (m_set m)) m) fuel =
    (r <- run argsortF solve m fuel ;; Ok (with_settings (with_j0 j (m_set m)) (fst r), snd r)).
  Proof.
    intros Hf Hl. unfold run. cbn [with_settings with_j0 m_nodes m_elems m_bounds m_forces m_set m_built s_log s_j0 s_stepcontrol s_reduce s_nsteps s_nstatev].
    destruct (Z.ltb_spec 1 (s_log (m_set m))); [lia|]. cbn [andb].
    destruct (m_built m) as [u|]; [|reflexivity]. destruct (m_nodes m) as [nh|]; [|reflexivity].
    destruct (m_elems m) as [eh|]; [|reflexivity]. destruct (m_forces m) as [fh|]; [|reflexivity].
    destruct (u_R u) as [|r0 rest]; [reflexivity|].
    rewrite (foldM_ext2 _ (run_step argsortF solve
      (Ctx (n_labels nh) (n_coords nh) eh (u_nnodes u) (u_ndof1 u) (s_nstatev (m_set m)))
      (m_set m) (e_rows fh) (Z.to_nat (s_nsteps (m_set m))) fuel)).
    - destruct (foldM _ _ _) as [s| |]; reflexivity.
    - intros s k. unfold run_step. cbn [with_j0 s_incs s_xlimit s_du s_dlpf s_j0 s_jpre].
      unfold pathfollow. cbn [pf_config with_j0 cf_jfixed s_jfixed]. rewrite Hf. reflexivity.
  Qed.

  Lemma build_settings m m' st : build argsortZ m = Ok m' -> s_nstatev st = s_nstatev (m_set m) ->
    build argsortZ (with_settings st m) = Ok (with_settings (with_nstatev (s_nstatev (m_set m')) st) m').
  Proof.
    intros H E. unfold build in *. cbn [with_settings m_nodes m_elems m_bounds m_forces m_set] in *. rewrite E.
    destruct (m_nodes m) as [nh0|]; [|discriminate]. destruct (m_elems m) as [eh|]; [|discriminate].
    destruct (fix_nodes argsortZ (Some nh0)) as [[nh|]| |]; try discriminate; cbn [bind] in *.
    destruct (fix_bounds_U argsortZ (m_bounds m) (n_labels nh)) as [ob| |]; try discriminate; cbn [bind] in *.
    destruct (fix_forces argsortZ (m_forces m) (n_labels nh)) as [oe| |]; try discriminate; cbn [bind] in *.
    destruct ob as [bh|]; [|discriminate]. destruct oe as [fh|]; [|discriminate].
    destruct (allclose (n_labels nh) (b_nodes bh)) as [c1| |]; try discriminate; cbn [bind] in *.
    destruct (if c1 then allclose (n_labels nh) (e_nodes fh) else Ok false) as [c2| |]; try discriminate; cbn [bind] in *.
    destruct (negb c2); [discriminate|].
    destruct (dofs_with 0 _ _) as [D0| |]; try discriminate; cbn [bind] in *.
    destruct (dofs_with 1 _ _) as [D1| |]; try discriminate; cbn [bind] in *.
    destruct (analysis_build _ _ _ _ _) as [an| |]; try discriminate; cbn [bind] in *.
    injection H as <-. reflexivity.
  Qed.

  Lemma rebuild P m ns ms bs fs m1 mb :
    argsort_ok argsortZ -> described m ns ms bs fs -> session argsortF solve argsortZ P m m1 ->
    build argsortZ m = Ok mb ->
    build argsortZ m1 = Ok (with_settings (m_set m1) mb).
  Proof.
    intros HA Hd HS Hb. destruct (sound_session _ _ _ _ _ _ _ _ _ _ HA Hd HS) as (mb' & Hb' & Hs).
    assert (mb' = mb) by congruence. subst mb'. clear Hb'.
    destruct Hs as (S1 & S2 & S3 & S4 & S5 & _).
    destruct Hd as (Hns & Hbs & Hfs & _ & H2 & Hnd & _).
    pose proof (build_again argsortZ m mb ns bs fs (m_built m1) HA Hns Hbs Hfs Hnd H2 Hb) as Hb1.
    apply (build_settings _ _ (m_set m1)) in Hb1; [|exact S5].
    assert (E : with_settings (m_set m1) (with_built mb (m_built m1)) = m1).
    { unfold with_settings, with_built. cbn. rewrite <- S1, <- S2, <- S3, <- S4. destruct m1; reflexivity. }
    rewrite E in Hb1. rewrite Hb1, <- S5. destruct (m_set m1); reflexivity.
  Qed.
End Props.
