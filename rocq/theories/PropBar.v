(** * C41: one elastic bar with one free degree of freedom

    Exact arithmetic.  The linear solver is any function that solves regular 2x2
    systems. *)
From Coq Require Import List ZArith Bool Arith Lia Reals Lra Permutation Sorted.
Import ListNotations.
From Verif Require Import Num NumR Vec Handlers Material Analysis Truss Equil Solver Run ListFacts SpecMech SpecMechR SpecBuild SpecSolver
  SpecRun RunFacts RunProps EditFacts SpecBar BarFacts.
Local Open Scope R_scope.

(** ** Residual and stiffness *)
(** At displacement [u > -L] and load factor [lam] the residual is the load minus
    E A u / L, and the normal force is E A u / L. *)
Theorem C41_residual : forall c ms i L E A F fc an u lam V0 w,
  (i < 3)%nat -> 0 < L -> is_bar c ms i L E A -> bar_state c ms i F fc an -> - L < u -> length V0 = 2%nat ->
  exists an', equilibrium c [u; lam] V0 w an = Ok (an', [fc + lam * F - E * A * u / L]) /\
    a_U an' = [vzero; along_axis i u] /\ a_force an' = [E * A / L * u].
Proof.
  intros c ms i L E A F fc an u lam V0 w Hi HL Hb Hs Hu HV.
  destruct (bar_residual c ms i L E A F fc Hi HL Hb an u lam V0 w Hs Hu HV) as (an' & He & _ & H1 & H2 & _). eauto.
Qed.
Print Assumptions C41_residual.

(** The residual vanishes exactly if the load is E A u / L. *)
Theorem C41_equilibrium : forall c ms i L E A F fc an u lam V0 w an' g,
  (i < 3)%nat -> 0 < L -> is_bar c ms i L E A -> bar_state c ms i F fc an -> - L < u -> length V0 = 2%nat ->
  equilibrium c [u; lam] V0 w an = Ok (an', g) ->
  (g = [0] <-> fc + lam * F = E * A * u / L).
Proof.
  intros c ms i L E A F fc an u lam V0 w an' g Hi HL Hb Hs Hu HV He.
  destruct (bar_residual c ms i L E A F fc Hi HL Hb an u lam V0 w Hs Hu HV) as (an2 & He2 & _).
  rewrite He in He2. injection He2 as _ ->. split; [intros H; injection H; lra|intros ->; f_equal; lra].
Qed.
Print Assumptions C41_equilibrium.

Theorem C41_stiffness : forall c ms i L E A F fc an u,
  (i < 3)%nat -> 0 < L -> is_bar c ms i L E A -> bar_state c ms i F fc an -> - L < u ->
  exists an', stiffness c [u] an = Ok (an', [[E * A / L]]).
Proof.
  intros c ms i L E A F fc an u Hi HL Hb Hs Hu.
  destruct (bar_stiffness c ms i L E A F fc Hi HL Hb an u Hs Hu) as (an' & He & _). eauto.
Qed.
Print Assumptions C41_stiffness.

(** ** Newton *)
(** From any start that does not invert the bar Newton reaches the point of the
    line E A u / L = fc + lam F with the prescribed component in at most two
    iterations (the second is needed if the first correction exceeds xtol). *)
Theorem C41_newton : forall c ms i L E A F fc solve an V0 j xmax ftol xtol nfev u lam,
  (i < 3)%nat -> 0 < L -> is_bar c ms i L E A -> bar_state c ms i F fc an -> exact2 solve ->
  (Z.abs j = 1)%Z /\ F <> 0 \/ (Z.abs j = 2)%Z /\ E * A / L <> 0 ->
  - L < u -> - L < fst (point (E * A / L) fc F j xmax) -> length V0 = 2%nat ->
  0 < ftol -> 0 < xtol -> (2 <= nfev)%Z ->
  exists an' o, newton solve (f_ext (equilibrium c) V0 j xmax false) (dfdx (stiffness c) j) [u; lam] nfev ftol xtol an = Ok (an', o) /\
    no_success o = true /\ (1 <= no_n o <= 2)%Z /\
    no_x o = [fst (point (E * A / L) fc F j xmax); snd (point (E * A / L) fc F j xmax)] /\
    a_U an' = [vzero; along_axis i (fst (point (E * A / L) fc F j xmax))].
Proof.
  intros c ms i L E A F fc solve an V0 j xmax ftol xtol nfev u lam Hi HL Hb Hs Hso Hj Hu Hp HV Hf Hx Hn.
  destruct (bar_newton c ms i L E A F fc Hi HL Hb solve Hso V0 j xmax _ _ ftol xtol nfev u lam an
    Hj (point_endpoint L E A F fc j Hj xmax) Hp Hs Hu HV Hf Hx Hn) as (an' & n & xn & He & H1 & _ & H2 & _).
  eexists _, _. split; [exact He|]. auto.
Qed.
Print Assumptions C41_newton.

(** ** A whole session: build, then a run of one step with a locked component *)
Lemma sort_pair argsort a b : argsort_ok argsort -> (a < b)%Z ->
  argsort [a; b] = [0; 1]%nat /\ argsort [b; a] = [1; 0]%nat.
Proof.
  intros H Hlt.
  assert (Hp : forall x y, argsort [x; y] = [0; 1]%nat \/ argsort [x; y] = [1; 0]%nat).
  { intros x y. destruct (H [x; y]) as [Hp _]. cbn in Hp. symmetry in Hp. apply Permutation_length_2_inv in Hp. exact Hp. }
  split.
  - destruct (Hp a b) as [?|E]; [assumption|]. destruct (H [a; b]) as [_ Hs]. rewrite E in Hs. cbn in Hs.
    inversion Hs as [|? ? _ Hf]. inversion Hf. lia.
  - destruct (Hp b a) as [E|?]; [|assumption]. destruct (H [b; a]) as [_ Hs]. rewrite E in Hs. cbn in Hs.
    inversion Hs as [|? ? _ Hf]. inversion Hf. lia.
Qed.

Lemma pow10neg_pos n : 0 < @pow10neg R _ n.
Proof.
  unfold pow10neg. destruct (Z.leb_spec 0 n); numR.
  - apply Rdiv_lt_0_compat; [lra|]. apply IZR_lt. apply Z.pow_pos_nonneg; lia.
  - apply IZR_lt. apply Z.pow_pos_nonneg; lia.
Qed.

Section Session.
  Variables (argsortZ : list Z -> list nat) (argsortF : list R -> list nat) (solve : list (list R) -> list R -> list R).
  Variables (i : nat) (p : v3 R) (L E A F : R) (st : settings R) (j : Z) (n : Z) (kl : Z) (fuel : nat).
  Hypotheses (HZ : argsort_ok argsortZ) (HF : sorts_pairs argsortF) (Hso : exact2 solve) (Hi : (i < 3)%nat) (HL : 0 < L).

  Definition bar_an : analysis R :=
    An 1 [vzero; vzero] [vzero; vzero] [vzero; vzero] (repeat 0 6) (zerosK 2) [0] [0] [0]
       (filter (fun k => negb (Nat.eqb k (3 + i))) (seq 0 6)) [(3 + i)%nat] [0] [] 0
       (if (0 <? s_nstatev st)%Z then Some [repeat 0 (Z.to_nat (s_nstatev st))] else None) [] 0 [] [] [] [] [].
  Definition bar_built : model R :=
    let m := bar_model i p L E A F st in
    Model (m_nodes m) (m_elems m) (m_bounds m)
      (Some (ForceH [1; 2]%Z 3 [[0; 0; 0]; set_nth i F [0; 0; 0]])) st
      (Some (Built 2 1 bar_an [set_lpf 0 (set_fconst (repeat (repeat 0 3) 2)
                                 (set_forces [[0; 0; 0]; set_nth i F [0; 0; 0]] bar_an))] [])).

  Lemma bar_builds : build argsortZ (bar_model i p L E A F st) = Ok bar_built.
  Proof.
    destruct (sort_pair argsortZ 1 2 HZ ltac:(lia)) as [S1 S2].
    unfold build, bar_model. cbn [m_nodes m_elems m_bounds m_forces fix_nodes n_labels].
    rewrite S1. cbn [gather nth_error bind n_coords].
    unfold fix_bounds_U. cbn [b_nodes missing filter existsb Z.eqb Pos.eqb orb negb foldM bind n_labels].
    rewrite S1. cbn [gather nth_error bind b_vals uv_take].
    unfold fix_forces. cbn [e_nodes e_width e_rows missing filter existsb Z.eqb Pos.eqb orb negb foldM bind add_force length Nat.eqb repeat app n_labels].
    rewrite S2. cbn [gather nth_error bind].
    change (allclose [1; 2]%Z [1; 2]%Z) with (@Ok bool true). cbn [b_nodes e_nodes e_rows e_width bind negb el_mtype existsb Z.eqb Pos.eqb orb].
    unfold bar_built, bar_an, bar_model. cbn [m_nodes m_elems m_bounds m_forces m_set].
    destruct st. unfold with_nstatev. cbn. destruct i as [|[|[|?]]]; try lia; reflexivity.
  Qed.

  Hypotheses (Hjf : s_jfixed st = true) (Hj0 : s_j0 st = Some j) (Hsc : s_stepcontrol st = false)
    (Hincs : s_incs st = Same n) (Hlim : s_xlimit st = Same (kl, None)) (Hkl : (-1 <= kl <= 2)%Z)
    (Hns : s_nsteps st = 1%Z) (Hlog : (s_log st <= 1)%Z) (Hdx : 1 <= s_dxtol st) (Hnf : (2 <= s_nfev st)%Z)
    (Hj : (Z.abs j = 1)%Z /\ F <> 0 \/ (Z.abs j = 2)%Z /\ E * A / L <> 0)
    (Hd : comp j (s_du st) (s_dlpf st) <> 0).
  Notation adv := (comp j (s_du st) (s_dlpf st) * IZR (Z.sgn j)).
  Hypothesis (Hinv : forall m, (1 <= m <= Z.to_nat n)%nat -> - L < fst (point (E * A / L) 0 F j (INR m * adv))).

  Notation bar_ctx := (Ctx [1; 2]%Z [p; vadd p (along_axis i L)]
    (ElemH [1]%Z [(1, 2)]%Z [1]%Z [1]%Z (Tab false 1 [[E]]) (Tab false 1 [[A]])) 2 1 (s_nstatev st)).
  Notation bar_ms := [Mb 1 1 2 UmatEl [E] [A]].

  Lemma bar_ctx_is : is_bar bar_ctx bar_ms i L E A.
  Proof.
    clear - i p L E A st.
    exists 1%Z, 1%Z, 2%Z, p, [], []. split; [|repeat split; reflexivity].
    unfold truss_ok. cbn [c_labels c_coords c_elems]. split.
    { repeat constructor; cbn; intros H; repeat destruct H as [H|H]; try discriminate; auto. }
    split; [reflexivity|]. split; [repeat split; reflexivity|]. split.
    { repeat constructor; cbn; tauto. }
    intros m [<-|[]]. cbn. repeat split; auto. discriminate.
  Qed.

  Definition bar_start : analysis R :=
    set_step 1 (set_f0red [F] (set_forces [[0; 0; 0]; set_nth i F [0; 0; 0]]
      (set_fconst [[0; 0; 0]; [0; 0; 0]] (set_lpf 0 (set_Vred [0; 0] bar_an))))).

  Lemma bar_start_state : bar_state bar_ctx bar_ms i F 0 bar_start.
  Proof.
    clear - Hi i p L E A F st.
    assert (Hk : (3 + i < 6)%nat) by lia.
    split.
    { unfold sizes_ok. cbn -[Nat.mul]. repeat match goal with |- _ /\ _ => split end; try reflexivity.
      - intros row [<-|[<-|[]]]; reflexivity.
      - repeat constructor. intros [].
      - intros k [<-|[]]. lia.
      - intros Hs. apply Z.ltb_lt in Hs. rewrite Hs. eexists. split; reflexivity. }
    split. { split; [reflexivity|]. unfold bar_start, bar_an. destruct i as [|[|[|?]]]; try lia; reflexivity. }
    split; [reflexivity|]. split; [reflexivity|].
    split. { unfold bar_start, bar_an. destruct i as [|[|[|?]]]; try lia; reflexivity. }
    split. { unfold bar_start, bar_an. destruct i as [|[|[|?]]]; try lia; reflexivity. }
    exists 0. unfold bar_start, bar_an. destruct i as [|[|[|?]]]; try lia; reflexivity.
  Qed.

  Lemma bar_setup : step_setup [[0; 0; 0]; set_nth i F [0; 0; 0]] 0
    (Rs (set_lpf 0 (set_Vred [0; 0] bar_an)) [] [] []) = Ok bar_start.
  Proof. unfold bar_start, bar_an. destruct i as [|[|[|?]]]; try lia; reflexivity. Qed.

  Lemma bar_runs : exists m2 out u2, run argsortF solve bar_built (S fuel) = Ok (m2, out) /\ m_built m2 = Some u2 /\
    (forall e, In e out -> ~ error_line e) /\
    length (u_R u2) = S (Z.to_nat n) /\
    forall m, (1 <= m <= Z.to_nat n)%nat -> exists a u lam, nth_error (u_R u2) m = Some a /\
      E * A / L * u = lam * F /\ comp j u lam = INR m * adv /\
      a_U a = [vzero; along_axis i u] /\ a_lpf a = lam /\ a_force a = [E * A / L * u].
  Proof.
    assert (Hx : expand_dxmax 2 (DxVec [s_du st; s_dlpf st]) = [s_du st; s_dlpf st]).
    { cbn. now rewrite Rmult_1_r || (unfold expand_dxmax; cbn; f_equal; numR; lra). }
    assert (Hpt : forall t, comp j 0 0 + t = t) by (intros t; unfold comp; destruct (Z.abs j =? 1)%Z; lra).
    destruct (bar_pathfollow bar_ctx bar_ms i L E A F 0 Hi HL bar_ctx_is solve Hso argsortF
      (pf_config st (kl, None) n) j (s_du st) (s_dlpf st) HF) with (u0 := 0) (an := bar_start)
      (dx := DxVec [s_du st; s_dlpf st]) (jp := s_jpre st) (fuel := fuel) as (pf & recs & Hpf & Hres & Hm & Hall & k' & Hout);
      try assumption.
    { apply pow10neg_pos. }
    { apply pow10neg_pos. }
    { intros x Hxl. destruct x as [|a [|b [|? ?]]]; try discriminate. unfold beyond_limit. cbn [cf_xlimit pf_config].
      assert (kl = -1 \/ kl = 0 \/ kl = 1 \/ kl = 2)%Z as [->|[->|[->| ->]]] by lia; reflexivity. }
    { exact bar_start_state. }
    { lra. }
    { intros m Hm. rewrite Hpt. apply Hinv. exact Hm. }
    assert (Hlen : length recs = Z.to_nat n).
    { rewrite <- (map_length fst), Hm, map_length, seq_length. reflexivity. }
    unfold run. cbn [bar_built m_set m_built m_nodes m_elems m_forces bar_model u_R].
    replace (1 <? s_log st)%Z with false by (symmetry; apply Z.ltb_ge; lia). cbn [andb]. rewrite Hns.
    change (Z.to_nat 1) with 1%nat. cbn [seq foldM]. unfold run_step at 1.
    rewrite Hincs, Hlim. cbn [at_step bind e_rows u_an n_labels n_coords u_nnodes u_ndof1 a_Ured bar_an app u_lpf_end r_lpf_end].
    set (r0 := set_lpf 0 (set_fconst _ _)).
    change (step_setup _ _ _) with
      (step_setup [[0; 0; 0]; set_nth i F [0; 0; 0]] 0 (Rs (set_lpf 0 (set_Vred [0; 0] bar_an)) [] [] [])).
    rewrite bar_setup. cbn [bind]. rewrite Hj0.
    change (a_Ured bar_start) with [0]. cbn [at_step] in Hpf |- *.
    change (pathfollow solve argsortF (fun V V0 w a => equilibrium bar_ctx V V0 w a) (fun U a => stiffness bar_ctx U a))
      with (pathfollow solve argsortF (equilibrium bar_ctx) (stiffness bar_ctx)).
    rewrite Hpf. cbn [bind]. rewrite Hres. cbn [tl r_R].
    pose proof (write_results (map snd recs) [r0] r0) as W. cbn [app] in W. rewrite W. clear W.
    rewrite app_comm_cons, copy_U_snoc, removelast_last.
    rewrite rev_app_distr. cbn [rev app bind Nat.add Nat.ltb Nat.leb]. cbn [r_out r_an r_R r_lpf_end app].
    eexists _, _, _. split; [reflexivity|]. cbn [m_built u_R]. split; [reflexivity|].
    split. { rewrite Hout. intros e He. apply repeat_spec in He. subst e. intros [H|H]; discriminate. }
    cbn [u_R]. split. { cbn [app length]. rewrite map_length, Hlen. reflexivity. }
    intros m Hm1. destruct m as [|m]; [lia|]. cbn [nth_error].
    destruct (nth_error recs m) as [[x a]|] eqn:Er; [|apply nth_error_None in Er; lia].
    destruct (Hall x a (nth_error_In _ _ Er)) as (v & l & -> & (U1 & U2 & _) & Hl & _).
    assert (Ex : nth_error (map fst recs) m = Some [v; l]) by (rewrite nth_error_map, Er; reflexivity).
    rewrite Hm in Ex. rewrite nth_error_map in Ex.
    assert (Es : nth_error (seq 1 (Z.to_nat n)) m = Some (S m)).
    { rewrite (nth_error_nth' _ 0%nat) by (rewrite seq_length; lia). rewrite seq_nth by lia. reflexivity. }
    change (Z.to_nat (cf_incs (pf_config st (kl, None) n))) with (Z.to_nat n) in Ex.
    rewrite Es in Ex. cbn [option_map] in Ex. cbv zeta in Ex. rewrite Hpt in Ex. injection Ex as E1 E2.
    destruct (point_endpoint L E A F 0 j Hj (INR (S m) * adv)) as [P1 P2].
    cbn [INR] in *. rewrite E1, E2 in P1, P2.
    exists a, v, l. split; [rewrite nth_error_map, Er; reflexivity|]. split; [lra|]. split; [exact P2|]. auto.
  Qed.
End Session.

(** With a locked component [j] (1: the displacement, 2: the load factor, the sign
    gives the direction) and no step control, [n] increments give [n + 1] results;
    in the [m]-th the controlled component is [m] times its step limit and
    displacement, load factor and normal force are on the line
    lam F = N = E A u / L. *)
Theorem C41_session : forall argsortZ argsortF solve i p L E A F st j n kl fuel,
  argsort_ok argsortZ -> sorts_pairs argsortF -> exact2 solve -> (i < 3)%nat -> 0 < L ->
  s_jfixed st = true -> s_j0 st = Some j -> s_stepcontrol st = false -> s_incs st = Same n ->
  s_xlimit st = Same (kl, None) -> (-1 <= kl <= 2)%Z -> s_nsteps st = 1%Z -> (s_log st <= 1)%Z ->
  1 <= s_dxtol st -> (2 <= s_nfev st)%Z ->
  (Z.abs j = 1)%Z /\ F <> 0 \/ (Z.abs j = 2)%Z /\ E * A / L <> 0 ->
  comp j (s_du st) (s_dlpf st) <> 0 ->
  let adv := comp j (s_du st) (s_dlpf st) * IZR (Z.sgn j) in
  (forall m, (1 <= m <= Z.to_nat n)%nat -> - L < fst (point (E * A / L) 0 F j (INR m * adv))) ->
  exists m1 m2 out u2, build argsortZ (bar_model i p L E A F st) = Ok m1 /\
    run argsortF solve m1 (S fuel) = Ok (m2, out) /\ m_built m2 = Some u2 /\
    (forall e, In e out -> ~ error_line e) /\
    length (u_R u2) = S (Z.to_nat n) /\
    forall m, (1 <= m <= Z.to_nat n)%nat -> exists a u lam, nth_error (u_R u2) m = Some a /\
      E * A / L * u = lam * F /\ comp j u lam = INR m * adv /\
      a_U a = [vzero; along_axis i u] /\ a_lpf a = lam /\ a_force a = [E * A / L * u].
Proof.
  intros argsortZ argsortF solve i p L E A F st j n kl fuel H1 H2 H3 H4 H5 H6 H7 H8 H9 H10 H11 H12 H13 H14 H15 H16 H17 adv H18.
  destruct (bar_runs argsortF solve i p L E A F st j n kl fuel H2 H3 H4 H5 H6 H7 H8 H9 H10 H11 H12 H13 H14 H15 H16 H17 H18)
    as (m2 & out & u2 & Hr).
  exists (bar_built i p L E A F st), m2, out, u2. split; [apply bar_builds; assumption|exact Hr].
Qed.
Print Assumptions C41_session.

(** ** The hypotheses are met *)
(** Cramer's rule. *)
Definition cramer (M : list (list R)) (v : list R) : list R :=
  match M, v with
  | [[a; b]; [c; d]], [r; s] => [(r * d - b * s) / (a * d - b * c); (a * s - c * r) / (a * d - b * c)]
  | _, _ => v
  end.
Lemma cramer_exact : exact2 cramer.
Proof. intros a b c d r s H. eexists _, _. split; [reflexivity|]. split; field; exact H. Qed.
Definition sort2 (l : list R) : list nat := seq 0 (length l).
Lemma sort2_ok : sorts_pairs sort2.
Proof. intros a b. left. reflexivity. Qed.

(** Bar of length 2 with E A = 6, unit load, three increments of 1/4 in the load
    factor. *)
Definition ex_settings (j : Z) (n : Z) : settings R :=
  Settings (Same n) false 4 (1/100) (1/2) 8 (5/4) 8 8 4 8 (1/4) (1/4) (Same (0%Z, None)) 0 (Some j) true true 0 1.

Lemma ex_bar_session j : j = 2%Z \/ j = (-1)%Z -> exists m1 m2 out u2,
  build argsort_ins (bar_model 1 (V3 1 2 3) 2 3 2 1 (ex_settings j 3)) = Ok m1 /\
  run sort2 cramer m1 1 = Ok (m2, out) /\ m_built m2 = Some u2 /\ length (u_R u2) = 4%nat /\
  (forall e, In e out -> ~ error_line e) /\
  exists a u lam, nth_error (u_R u2) 3 = Some a /\ 3 * 2 / 2 * u = lam * 1 /\ comp j u lam = 3 * (1/4 * IZR (Z.sgn j)) /\
    a_U a = [vzero; along_axis 1 u] /\ a_lpf a = lam /\ a_force a = [3 * 2 / 2 * u].
Proof.
  intros Hj.
  assert (Ec : comp j (s_du (ex_settings j 3)) (s_dlpf (ex_settings j 3)) = 1/4) by (destruct Hj as [->| ->]; reflexivity).
  assert (Hjj : (Z.abs j = 1)%Z /\ 1 <> 0 \/ (Z.abs j = 2)%Z /\ 3 * 2 / 2 <> 0).
  { destruct Hj as [->| ->]; [right|left]; split; try reflexivity; lra. }
  assert (Hd : comp j (s_du (ex_settings j 3)) (s_dlpf (ex_settings j 3)) <> 0) by (rewrite Ec; lra).
  assert (Hinv : forall m, (1 <= m <= Z.to_nat 3)%nat ->
    - (2) < fst (point (3 * 2 / 2) 0 1 j (INR m * (comp j (s_du (ex_settings j 3)) (s_dlpf (ex_settings j 3)) * IZR (Z.sgn j))))).
  { intros m Hm. rewrite Ec. change (Z.to_nat 3) with 3%nat in Hm.
    assert (0 <= INR m <= 3).
    { split; [apply pos_INR|]. replace 3 with (INR 3) by (cbn; lra). apply le_INR. lia. }
    destruct Hj as [->| ->]; cbn; lra. }
  destruct (C41_session argsort_ins sort2 cramer 1 (V3 1 2 3) 2 3 2 1 (ex_settings j 3) j 3 0 0
    argsort_ins_ok sort2_ok cramer_exact ltac:(lia) ltac:(lra) eq_refl eq_refl eq_refl eq_refl eq_refl ltac:(lia) eq_refl
    ltac:(cbn; lia) ltac:(cbn; lra) ltac:(cbn; lia) Hjj Hd Hinv) as (m1 & m2 & out & u2 & E1 & E2 & E3 & E4 & E5 & E6).
  exists m1, m2, out, u2. do 3 (split; [assumption|]). split; [exact E5|]. split; [exact E4|].
    destruct (E6 3%nat) as (a & u & lam & A1 & A2 & A3 & A4 & A5 & A6); [change (Z.to_nat 3) with 3%nat; lia|].
    exists a, u, lam. repeat (split; [assumption|]). rewrite Ec in A3. split; [rewrite A3; cbn; lra|]. auto.
Qed.

(** Under load control the load factor 3/4 gives the displacement 1/4 ... *)
Example C41_session_meets : exists m1 m2 out u2 a,
  build argsort_ins (bar_model 1 (V3 1 2 3) 2 3 2 1 (ex_settings 2 3)) = Ok m1 /\
  run sort2 cramer m1 1 = Ok (m2, out) /\ m_built m2 = Some u2 /\ nth_error (u_R u2) 3 = Some a /\
  a_lpf a = 3/4 /\ a_U a = [vzero; V3 0 (1/4) 0] /\ a_force a = [3/4].
Proof.
  destruct (ex_bar_session 2 (or_introl eq_refl)) as (m1 & m2 & out & u2 & E1 & E2 & E3 & _ & _ & a & u & lam & A1 & A2 & A3 & A4 & A5 & A6).
  cbn in A3. assert (Eu : u = 1/4) by lra. assert (El : lam = 3/4) by lra. rewrite Eu in A4, A6. rewrite El in A5.
  exists m1, m2, out, u2, a. do 4 (split; [assumption|]). split; [exact A5|]. split; [exact A4|].
  rewrite A6. f_equal. lra.
Qed.
(** ... and shortening under displacement control, to the displacement -3/4, takes the
    load factor -9/4. *)
Example C41_compression_meets : exists m1 m2 out u2 a,
  build argsort_ins (bar_model 1 (V3 1 2 3) 2 3 2 1 (ex_settings (-1) 3)) = Ok m1 /\
  run sort2 cramer m1 1 = Ok (m2, out) /\ m_built m2 = Some u2 /\ nth_error (u_R u2) 3 = Some a /\
  a_lpf a = -9/4 /\ a_U a = [vzero; V3 0 (-3/4) 0] /\ a_force a = [-9/4].
Proof.
  destruct (ex_bar_session (-1) (or_intror eq_refl)) as (m1 & m2 & out & u2 & E1 & E2 & E3 & _ & _ & a & u & lam & A1 & A2 & A3 & A4 & A5 & A6).
  cbn in A3. assert (Eu : u = -3/4) by lra. assert (El : lam = -9/4) by lra. rewrite Eu in A4, A6. rewrite El in A5.
  exists m1, m2, out, u2, a. do 4 (split; [assumption|]). split; [exact A5|]. split; [exact A4|].
  rewrite A6. f_equal. lra.
Qed.

Example C41_bar_meets : exists c ms an, is_bar c ms 1 2 3 2 /\ bar_state c ms 1 1 0 an /\ 0 < 2 /\ exact2 cramer /\
  - (2) < fst (point (3 * 2 / 2) 0 1 2 (1/2)).
Proof.
  eexists _, _, _. split; [apply (bar_ctx_is 1 (V3 1 2 3) 2 3 2 (ex_settings 2 3))|].
  split; [apply bar_start_state; lia|]. split; [lra|]. split; [apply cramer_exact|]. cbn. lra.
Qed.

(** The same session meets the hypotheses of the theorems of PropRun.v about exact
    arithmetic (C26_equilibrium, C29_run, C31_run, C31_amount, C35_reactions, C42_consistent):
    one step with three good records. *)
Lemma bar_described i p L E A F st : (i < 3)%nat ->
  described (bar_model i p L E A F st) [(1%Z, p); (2%Z, vadd p (along_axis i L))] [Mb 1 1 2 UmatEl [E] [A]]
    [(1%Z, [0; 0; 0]%Z); (2%Z, set_nth i 1%Z [0; 0; 0]%Z)] [(2%Z, set_nth i F [0; 0; 0])].
Proof.
  intros Hi. unfold described. split; [split; reflexivity|]. split.
  { split; [reflexivity|]. split; [reflexivity|]. destruct i as [|[|[|?]]]; try lia; repeat constructor. }
  split. { split; [reflexivity|]. split; [reflexivity|]. destruct i as [|[|[|?]]]; try lia; repeat constructor. }
  split. { eexists. split; [reflexivity|]. repeat split. }
  split; [cbn; lia|].
  split. { repeat constructor; cbn; intros H; repeat destruct H as [H|H]; try discriminate; auto. }
  split. { repeat constructor; cbn; intros H; repeat destruct H as [H|H]; try discriminate; auto. }
  split. { cbn. intros r [<-|[<-|[]]]; destruct i as [|[|[|?]]]; try lia; reflexivity. }
  intros b [<-|[]]; cbn; repeat split; auto; discriminate.
Qed.

Example exact_runs_meet : exists m m1 m2 out lg u1 ns ms bs fs,
  described m ns ms bs fs /\ session sort2 cramer argsort_ins (fun _ => True) m m1 /\
  ran_as sort2 cramer m1 1 m2 out [lg] /\ m_built m1 = Some u1 /\ (1 <= u_ndof1 u1)%nat /\
  s_jfixed (m_set m1) = true /\ s_j0 (m_set m1) = Some 2%Z /\ s_stepcontrol (m_set m1) = false /\
  (forall l v, In (l, v) bs -> incl v [0; 1]%Z) /\
  (0 < s_du (m_set m1) /\ 0 <= s_minfac (m_set m1) <= 1 /\ 1 <= s_maxfac (m_set m1) /\
   1 <= s_reduce (m_set m1) /\ 0 <= s_increase (m_set m1)) /\
  length (lg_recs lg) = 3%nat /\ good_part lg (lg_recs lg).
Proof.
  destruct (ex_bar_session 2 (or_introl eq_refl)) as (m1 & m2 & out & u2 & E1 & E2 & E3 & E4 & E5 & _).
  pose proof (bar_builds argsort_ins 1 (V3 1 2 3) 2 3 2 1 (ex_settings 2 3) argsort_ins_ok ltac:(lia)) as Eb.
  assert (m1 = bar_built 1 (V3 1 2 3) 2 3 2 1 (ex_settings 2 3)) by congruence. subst m1. clear Eb.
  destruct (run_ran_as _ _ _ _ _ _ E2 ltac:(cbn; lia)) as (logs & HL).
  pose proof HL as (_ & Hlen & _ & u & nh & eh & fh & r0 & rest & u' & B1 & _ & _ & _ & B5 & B6 & _ & B8 & _ & B10 & _).
  cbn in Hlen. destruct logs as [|lg [|? ?]]; cbn in Hlen; try lia.
  rewrite E3 in B6. injection B6 as <-. cbn in B1. injection B1 as <-. cbn in B5. injection B5 as <- <-.
  cbn [map concat] in B8, B10. rewrite app_nil_r in B8, B10. rewrite B8 in E4. cbn in E4. unfold lg_results in E4.
  rewrite map_length in E4.
  eexists _, _, m2, out, lg, _, _, _, _, _. split; [apply (bar_described 1 (V3 1 2 3) 2 3 2 1 (ex_settings 2 3)); lia|].
  split; [apply s_build; exact E1|]. split; [exact HL|]. split; [reflexivity|]. split; [cbn; lia|].
  split; [reflexivity|]. split; [reflexivity|]. split; [reflexivity|].
  split. { intros l v Hin. cbn in Hin. intros z Hz. destruct Hin as [H|[H|[]]]; injection H as <- <-; cbn in Hz |- *; tauto. }
  split. { cbn. lra. }
  split; [lia|]. left. split; [reflexivity|]. rewrite <- B10. exact E5.
Qed.
