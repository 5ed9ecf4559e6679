(** * The single bar in exact arithmetic *)
From Coq Require Import List ZArith Bool Arith Lia Reals Lra.
Import ListNotations.
From Verif Require Import Num NumR Vec Handlers Material Analysis Truss Equil Solver Run ListFacts SpecMaterial SpecMech SpecMechR EquilFacts
  MechFacts StiffFacts TangentFacts SpecState FrameFacts EvalFacts SpecBar SpecSolver PropMech.
Local Open Scope R_scope.

Section Bar.
  Variables (c : ctx R) (ms : list (member R)) (i : nat) (L E A F fc : R).
  Hypotheses (Hi : (i < 3)%nat) (HL : 0 < L) (Hbar : is_bar c ms i L E A).

  Lemma along_len v : len (along_axis i v) = Rabs v.
  Proof.
    rewrite <- (sqrt_Rsqr_abs v). unfold len, Rsqr.
    destruct i as [|[|[|?]]]; try lia; cbn; f_equal; ring.
  Qed.

  Lemma bar_scatter u u' : scatter [vzero; along_axis i u'] [(3 + i)%nat] [u] = Ok [vzero; along_axis i u].
  Proof. destruct i as [|[|[|?]]]; try lia; reflexivity. Qed.

  Lemma bar_axis0 m : nth_error ms 0 = Some m -> axis0 c m = along_axis i L.
  Proof.
    destruct Hbar as (lb & na & nb & p & mat & geo & Hok & El & Ec & -> & _). intros H. injection H as <-.
    unfold axis0. cbn [mb_a mb_b]. rewrite El, Ec. cbn [row_of]. rewrite !Z.eqb_refl.
    destruct Hok as (Hnd & _). rewrite El in Hnd. destruct (Z.eqb_spec nb na) as [->|_]; [inversion Hnd; cbn in *; tauto|].
    destruct i as [|[|[|?]]]; try lia; destruct p; unfold vsub, vadd, vmap2; cbn; numR; f_equal; ring.
  Qed.

  Lemma bar_axis m u : nth_error ms 0 = Some m -> axis c [vzero; along_axis i u] m = along_axis i (L + u).
  Proof.
    destruct Hbar as (lb & na & nb & p & mat & geo & Hok & El & Ec & -> & _). intros H. injection H as <-.
    unfold axis, place. cbn [mb_a mb_b]. rewrite El, Ec. cbn [row_of]. rewrite !Z.eqb_refl.
    destruct Hok as (Hnd & _). rewrite El in Hnd. destruct (Z.eqb_spec nb na) as [->|_]; [inversion Hnd; cbn in *; tauto|].
    destruct i as [|[|[|?]]]; try lia; destruct p; unfold vsub, vadd, vmap2; cbn; numR; f_equal; ring.
  Qed.

  Lemma bar_props an : props_ok c ms an.
  Proof.
    destruct Hbar as (lb & na & nb & p & mat & geo & _ & _ & _ & -> & _).
    intros [|[|k]] m Hm; cbn in Hm; try discriminate. injection Hm as <-. cbn. split; discriminate.
  Qed.

  Lemma bar_regular an u : - L < u -> regular c ms an [vzero; along_axis i u].
  Proof.
    intros Hu k m Hm. assert (Hk : nth_error ms 0 = Some m /\ mb_law m = UmatEl).
    { destruct Hbar as (lb & na & nb & p & mat & geo & _ & _ & _ & -> & _).
      destruct k as [|[|k]]; cbn in Hm; try discriminate. injection Hm as <-. split; reflexivity. }
    destruct Hk as [Hm0 Hlaw]. rewrite (bar_axis0 _ Hm0), (bar_axis _ _ Hm0), !along_len, Hlaw.
    split; [|split; [|exact I]]; apply Rabs_no_R0; lra.
  Qed.

  Lemma bar_keep an an' u : bar_state c ms i F fc an -> same_setup an an' -> sizes_ok c ms an' ->
    a_U an' = [vzero; along_axis i u] -> bar_state c ms i F fc an'.
  Proof.
    intros (S1 & S2 & S3 & S4 & S5 & S6 & _) (_ & _ & D & F0 & C & Fo & _) Hs HU.
    unfold bar_state, loads_ok in *. rewrite D, F0, C, Fo.
    repeat match goal with |- _ /\ _ => split end; try tauto. eauto.
  Qed.

  Lemma bar_residual an u lam V0 w : bar_state c ms i F fc an -> - L < u -> length V0 = 2%nat ->
    exists an', equilibrium c [u; lam] V0 w an = Ok (an', [fc + lam * F - E * A * u / L]) /\
      bar_state c ms i F fc an' /\ bar_at i (E * A / L) u an'.
  Proof.
    intros Hst Hu HV0. pose proof Hst as (Hsz & Hld & HD & Hf0 & HF & Hfc & u' & HU).
    pose proof Hbar as (lb & na & nb & p & mat & geo & Hok & El & Ec & Ems & Hn).
    destruct (C15_evaluations_succeed c ms an Hok Hsz Hld (bar_props an)) as [Hev _].
    destruct (Hev [u; lam] V0 w) as (an' & g & Heq); [rewrite Hn; reflexivity|rewrite Hn; exact HV0|].
    destruct (C15_residual c ms [u; lam] V0 w an an' g Hok Hsz Hld ltac:(rewrite Hn; reflexivity) Heq) as (Hsc & Hlen & Hres).
    destruct (C15_internal_forces c ms _ _ _ _ _ _ Hok Hsz Heq) as [Hmem Hnode].
    rewrite HU, HD, Hn in Hsc. cbn [firstn] in Hsc. rewrite bar_scatter in Hsc. injection Hsc as HU'. symmetry in HU'.
    rewrite HD in Hlen. destruct g as [|gv [|? ?]]; cbn in Hlen; try lia.
    exists an'. pose proof (equilibrium_same _ _ _ _ _ _ _ Heq) as (Hsame & _).
    pose proof (equilibrium_lengths _ _ _ _ _ _ _ _ Hok Hsz Heq) as Hsz'.
    set (mb := Mb lb na nb UmatEl (E :: mat) (A :: geo)) in *.
    assert (Hm0 : nth_error ms 0 = Some mb) by (rewrite Ems; reflexivity).
    destruct (Hmem 0%nat mb Hm0) as (s & t & st & A' & Hum & HA & _ & _ & Hfo).
    cbn in HA. injection HA as <-. specialize (Hum 0). cbn in Hum. injection Hum as Es _ _.
    assert (Hfs : a_force an' = [A * s]).
    { destruct Hsz' as (_ & _ & _ & _ & _ & _ & _ & Hlf & _). rewrite Ems in Hlf. cbn in Hlf.
      destruct (a_force an') as [|x [|? ?]]; cbn in Hlf; try lia. cbn in Hfo. injection Hfo as ->. reflexivity. }
    assert (Hnb : na <> nb).
    { destruct Hok as (Hnd & _). rewrite El in Hnd. intros ->. inversion Hnd. cbn in *. tauto. }
    assert (Hr : row_of (c_labels c) (a_r an') vzero nb = along_axis i (E * A * u / L)).
    { rewrite Hnode by (rewrite El; right; left; reflexivity). rewrite Ems, Hfs. cbn [combine map vsum fold_right].
      unfold pull. cbn [fst snd]. cbn [mb mb_b]. rewrite Z.eqb_refl. unfold direction. rewrite HU', (bar_axis _ _ Hm0), along_len.
      rewrite Rabs_pos_eq by lra. rewrite <- Es. numR.
      unfold stretch_of. rewrite HU', (bar_axis _ _ Hm0), (bar_axis0 _ Hm0), !along_len, !Rabs_pos_eq by lra.
      destruct i as [|[|[|?]]]; try lia; unfold vadd, vscale, vmap2, vmap; cbn; numR; f_equal; field; lra. }
    assert (Hgv : gv = fc + lam * F - E * A * u / L).
    { specialize (Hres 0%nat (3 + i)%nat nb). rewrite HD in Hres. specialize (Hres eq_refl).
      replace ((3 + i) / 3)%nat with 1%nat in Hres by (destruct i as [|[|[|?]]]; try lia; reflexivity).
      rewrite El in Hres. specialize (Hres eq_refl). rewrite <- El, Hr, Hfc, HF in Hres. cbn [nth last] in Hres.
      replace ((3 + i) mod 3)%nat with i in Hres by (destruct i as [|[|[|?]]]; try lia; reflexivity).
      rewrite Hres. destruct i as [|[|[|?]]]; try lia; cbn; numR; lra. }
    split; [rewrite Heq, Hgv; reflexivity|]. split; [eapply bar_keep; eassumption|]. split; [exact HU'|]. split.
    { rewrite Hfs, <- Es. numR. unfold stretch_of.
      rewrite HU', (bar_axis _ _ Hm0), (bar_axis0 _ Hm0), !along_len, !Rabs_pos_eq by lra. f_equal. field. lra. }
    replace (E * A / L * u) with (E * A * u / L) by (field; lra).
    destruct Hsz' as (_ & _ & Hlr & _). rewrite El in Hlr. cbn in Hlr.
    destruct (a_r an') as [|r1 [|r2 [|? ?]]]; cbn in Hlr; try lia. rewrite El in Hr. cbn [row_of] in Hr.
    destruct (Z.eqb_spec nb na); [congruence|]. rewrite Z.eqb_refl in Hr. subst r2.
    destruct i as [|[|[|?]]]; try lia; destruct r1; reflexivity.
  Qed.

  Lemma bar_stiffness an u : bar_state c ms i F fc an -> - L < u ->
    exists an', stiffness c [u] an = Ok (an', [[E * A / L]]) /\ bar_state c ms i F fc an' /\
      a_U an' = [vzero; along_axis i u].
  Proof.
    intros Hst Hu. pose proof Hst as (Hsz & Hld & HD & Hf0 & HF & Hfc & u' & HU).
    pose proof Hbar as (lb & na & nb & p & mat & geo & Hok & El & Ec & Ems & Hn).
    destruct (C15_evaluations_succeed c ms an Hok Hsz Hld (bar_props an)) as [_ Hev].
    destruct (Hev [u]) as (an' & K & Heq); [rewrite Hn; reflexivity|].
    pose proof (stiffness_same _ _ _ _ _ Heq) as (Hsame & _).
    pose proof (stiffness_parts _ _ _ _ _ Heq) as (U & U0 & a2 & HsU & _ & Hl & HK & Ea).
    rewrite HU, HD in HsU. unfold ext_disp in HsU. rewrite Hn in HsU. cbn in HsU. fold (scatter (A:=R)) in HsU.
    assert (EU : U = [vzero; along_axis i u]).
    { pose proof (bar_scatter u u') as Hs. unfold scatter in Hs. rewrite Hs in HsU || idtac.
      destruct i as [|[|[|?]]]; try lia; cbn in HsU; injection HsU as <-; reflexivity. }
    pose proof (elem_loop_frame _ _ _ _ _ _ _ Hl) as ((E1 & _) & _). cbn in E1.
    assert (HU' : a_U an' = [vzero; along_axis i u]) by (rewrite Ea; cbn; congruence).
    assert (Hsz' : sizes_ok c ms an').
    { eapply gstiffness_sizes; eassumption. }
    exists an'. split; [|split; [eapply bar_keep; eassumption|exact HU']].
    rewrite Heq. f_equal. f_equal.
    assert (HK1 : exists k, K = [[k]]).
    { assert (HD2 : a_DOF1 a2 = [(3 + i)%nat]).
      { destruct Hsame as (_ & _ & D & _). rewrite Ea in D. cbn in D. congruence. }
      rewrite HD2 in HK. unfold select2 in HK. apply bind_ok in HK. destruct HK as (rows & Hr & HK).
      apply gather_length in Hr. destruct rows as [|r [|? ?]]; cbn [length] in Hr; try lia.
      cbn [foldM] in HK. mstep HK. mstep Ha. apply gather_length in Ha0.
      injection Ha as <-. injection HK as <-. destruct a0 as [|k [|? ?]]; cbn [length] in Ha0; try lia.
      exists k. reflexivity. }
    destruct HK1 as [k ->]. f_equal. f_equal.
    destruct (C19_stiffness_is_tangent c ms [u] 0 [0; 0] false an an' [[k]]) as [_ Hd];
      [exact Hok|exact Hsz|exact Hld|rewrite Hn; reflexivity|rewrite Hn; reflexivity|exact Heq| |].
    { rewrite HU'. apply bar_regular, Hu. }
    specialize (Hd 0%nat 0%nat). rewrite Hn in Hd. specialize (Hd ltac:(lia) ltac:(lia)). cbn [nth] in Hd.
    eapply uniqueness_limite; [exact Hd|].
    apply derivable_pt_lim_locally_ext with (f := fun t => E * A / L * t - fc) (a := - L) (b := u + 1).
    - lra.
    - intros z Hz. cbn [set_nth app].
      destruct (bar_residual an z 0 [0; 0] false Hst ltac:(lra) eq_refl) as (an3 & Hz3 & _). rewrite Hz3. cbn.
      field. lra.
    - assert (G : derivable_pt_lim (fun t => E * A / L * t - fc) u (E * A / L * 1 - 0)).
      { apply (derivable_pt_lim_minus (fun t => E * A / L * t) (fun _ => fc)); [|apply derivable_pt_lim_const].
        apply (derivable_pt_lim_scal (fun t => t)), derivable_pt_lim_id. }
      rewrite Rmult_1_r, Rminus_0_r in G. exact G.
  Qed.

  (** ** Newton *)
  Notation k := (E * A / L).
  Notation gbar := (equilibrium c).
  Notation kbar := (stiffness c).

  Lemma comp_get j u lam : (Z.abs j = 1 \/ Z.abs j = 2)%Z -> py_get [u; lam] (Z.abs j - 1) = Ok (comp j u lam).
  Proof. unfold comp. intros [H|H]; rewrite H; reflexivity. Qed.

  Lemma bar_state_set_j j an : bar_state c ms i F fc an -> bar_state c ms i F fc (set_j j an).
  Proof. exact (fun H => H). Qed.
  Lemma bar_state_set_Kmod m an : bar_state c ms i F fc an -> bar_state c ms i F fc (set_Kmod m an).
  Proof. exact (fun H => H). Qed.
  Lemma bar_state_set_dVmax m an : bar_state c ms i F fc an -> bar_state c ms i F fc (set_dVmax m an).
  Proof. exact (fun H => H). Qed.
  Lemma bar_state_recorded x an : bar_state c ms i F fc an -> bar_state c ms i F fc (recorded x an).
  Proof. exact (fun H => H). Qed.

  Lemma fext_bar V0 j xm w u lam an :
    (Z.abs j = 1 \/ Z.abs j = 2)%Z -> bar_state c ms i F fc an -> - L < u -> length V0 = 2%nat ->
    exists an', f_ext gbar V0 j xm w [u; lam] an = Ok (an', [k * u - (fc + lam * F); comp j u lam - xm]) /\
      bar_state c ms i F fc an' /\ bar_at i k u an'.
  Proof.
    intros Hj Hst Hu HV0. destruct (bar_residual _ u lam V0 w (bar_state_set_j j _ Hst) Hu HV0) as (an' & He & Hst' & HU').
    exists an'. split; [|split; [exact Hst'|exact HU']].
    unfold f_ext. rewrite He. cbn [bind]. rewrite comp_get by exact Hj. cbn [bind map app]. numR.
    f_equal. f_equal. f_equal. field. lra.
  Qed.

  Lemma dfdx_bar j u lam an :
    (Z.abs j = 1 \/ Z.abs j = 2)%Z -> bar_state c ms i F fc an -> - L < u ->
    exists an', dfdx kbar j [u; lam] an = Ok (an', [[k; - F]; [comp j 1 0; comp j 0 1]]) /\
      bar_state c ms i F fc an' /\ a_U an' = [vzero; along_axis i u].
  Proof.
    intros Hj Hst Hu. destruct (bar_stiffness _ u (bar_state_set_j j _ Hst) Hu) as (an' & He & Hst' & HU').
    exists (set_Kmod [[k; - F]; [comp j 1 0; comp j 0 1]] an'). split; [|split; [exact Hst'|exact HU']].
    unfold dfdx. cbn [length].
    assert (Eq : ctrl_row 2 j = Ok [comp j 1 0; comp j 0 1]).
    { unfold ctrl_row, comp. destruct Hj as [Hj|Hj]; rewrite Hj; reflexivity. }
    rewrite Eq. cbn [bind removelast]. rewrite He. cbn [bind].
    destruct Hst' as (_ & _ & _ & Hf0 & _). rewrite Hf0. reflexivity.
  Qed.

  Variable solve : list (list R) -> list R -> list R.
  Hypothesis Hsolve : exact2 solve.

  (** The end point: on the path, the controlled component at its target. *)
  Definition endpoint (j : Z) (xm us ls : R) : Prop := k * us = fc + ls * F /\ comp j us ls = xm.

  Lemma bar_det j us ls xm : ((Z.abs j = 1)%Z /\ F <> 0 \/ (Z.abs j = 2)%Z /\ k <> 0) -> endpoint j xm us ls ->
    k * comp j 0 1 - - F * comp j 1 0 <> 0.
  Proof. unfold comp. intros [[H HF]|[H HK]] _; rewrite H; cbn; lra. Qed.

  Lemma bar_solve j xm us ls u lam :
    ((Z.abs j = 1)%Z /\ F <> 0 \/ (Z.abs j = 2)%Z /\ k <> 0) -> endpoint j xm us ls ->
    solve [[k; - F]; [comp j 1 0; comp j 0 1]] [- (k * u - (fc + lam * F)); - (comp j u lam - xm)] = [us - u; ls - lam].
  Proof.
    intros Hj He. destruct (Hsolve k (- F) (comp j 1 0) (comp j 0 1) (- (k * u - (fc + lam * F))) (- (comp j u lam - xm)))
      as (x & y & -> & H1 & H2); [eapply bar_det; eassumption|].
    destruct He as [He1 He2]. revert He2 H2. unfold comp. destruct Hj as [[Hj HF]|[Hj HK]]; rewrite Hj; cbn; intros He2 H2.
    - assert (x = us - u) by lra. subst x. f_equal. f_equal.
      apply (Rmult_eq_reg_l F); [|exact HF]. lra.
    - assert (y = ls - lam) by lra. subst y. f_equal.
      apply (Rmult_eq_reg_l k); [|exact HK]. lra.
  Qed.

  (** One iteration from anywhere leads to the end point. *)
  Lemma bar_iter V0 j xm us ls ftol xtol n nn u lam prev an :
    ((Z.abs j = 1)%Z /\ F <> 0 \/ (Z.abs j = 2)%Z /\ k <> 0) -> endpoint j xm us ls -> - L < us ->
    bar_state c ms i F fc an -> - L < u -> length V0 = 2%nat -> 0 < ftol ->
    exists an', bar_state c ms i F fc an' /\ bar_at i k us an' /\
      newton_loop solve (f_ext gbar V0 j xm false) (dfdx kbar j) ftol xtol (S n) nn [u; lam] prev an =
      if Rltb (sqrt ((us - u) ^ 2 + (ls - lam) ^ 2)) xtol
      then Ok (an', NOut [us; ls] true (nn + 1)%Z 0 (sqrt ((us - u) ^ 2 + (ls - lam) ^ 2)))
      else newton_loop solve (f_ext gbar V0 j xm false) (dfdx kbar j) ftol xtol n (nn + 1)%Z [us; ls]
             (Some (0, sqrt ((us - u) ^ 2 + (ls - lam) ^ 2))) an'.
  Proof.
    intros Hj He Hus Hst Hu HV0 Hf.
    assert (Hj' : (Z.abs j = 1 \/ Z.abs j = 2)%Z) by tauto.
    destruct (dfdx_bar j u lam an Hj' Hst Hu) as (a1 & D1 & S1 & _).
    destruct (fext_bar V0 j xm false u lam a1 Hj' S1 Hu HV0) as (a2 & D2 & S2 & _).
    destruct (fext_bar V0 j xm false us ls a2 Hj' S2 Hus HV0) as (a3 & D3 & S3 & HU3).
    exists a3. split; [exact S3|]. split; [exact HU3|].
    cbn [newton_loop]. rewrite D1. cbn [bind]. rewrite D2. cbn [bind map]. numR.
    rewrite (bar_solve _ _ _ _ _ _ Hj He). unfold bcast2. cbn [length Nat.eqb map2 bind]. numR.
    replace (u + (us - u)) with us by ring. replace (lam + (ls - lam)) with ls by ring.
    rewrite D3. cbn [bind]. destruct He as [He1 He2]. rewrite He1, He2.
    replace (fnorm [fc + ls * F - (fc + ls * F); xm - xm]) with 0.
    2:{ unfold fnorm, fdot. numR. rewrite !Rminus_eq_0. replace (0 * 0 + (0 * 0 + 0)) with 0 by ring. now rewrite sqrt_0. }
    replace (fnorm [us - u; ls - lam]) with (sqrt ((us - u) ^ 2 + (ls - lam) ^ 2)).
    2:{ unfold fnorm, fdot. numR. f_equal. ring. }
    replace (Rltb 0 ftol) with true by (symmetry; apply Rltb_true; exact Hf). reflexivity.
  Qed.

  Lemma bar_newton V0 j xm us ls ftol xtol nfev u lam an :
    ((Z.abs j = 1)%Z /\ F <> 0 \/ (Z.abs j = 2)%Z /\ k <> 0) -> endpoint j xm us ls -> - L < us ->
    bar_state c ms i F fc an -> - L < u -> length V0 = 2%nat -> 0 < ftol -> 0 < xtol -> (2 <= nfev)%Z ->
    exists an' n xn, newton solve (f_ext gbar V0 j xm false) (dfdx kbar j) [u; lam] nfev ftol xtol an =
        Ok (an', NOut [us; ls] true n 0 xn) /\ (1 <= n <= 2)%Z /\
      bar_state c ms i F fc an' /\ bar_at i k us an'.
  Proof.
    intros Hj He Hus Hst Hu HV0 Hf Hx Hn. unfold newton.
    replace (Z.to_nat nfev) with (S (S (Z.to_nat (nfev - 2)))) by lia.
    destruct (bar_iter V0 j xm us ls ftol xtol (S (Z.to_nat (nfev - 2))) 0 u lam None an Hj He Hus Hst Hu HV0 Hf)
      as (a1 & S1 & U1 & ->).
    destruct (Rltb _ xtol) eqn:Ex.
    { eexists _, _, _. split; [reflexivity|]. split; [lia|]. auto. }
    destruct (bar_iter V0 j xm us ls ftol xtol (Z.to_nat (nfev - 2)) 1 us ls
      (Some (0, sqrt ((us - u) ^ 2 + (ls - lam) ^ 2))) a1 Hj He Hus S1 Hus HV0 Hf)
      as (a2 & S2 & U2 & Eq).
    cbn in Eq |- *. rewrite Eq.
    replace ((us - us) * ((us - us) * 1) + (ls - ls) * ((ls - ls) * 1)) with 0 by ring. rewrite sqrt_0.
    replace (Rltb 0 xtol) with true by (symmetry; apply Rltb_true; exact Hx).
    eexists _, _, _. split; [reflexivity|]. split; [lia|]. auto.
  Qed.

  (** ** The path with a locked component *)
  Variables (argsortF : list R -> list nat) (cfg : pfcfg R) (j : Z) (d1 d2 : R).
  Hypotheses (Hsort : sorts_pairs argsortF) (Hjf : cf_jfixed cfg = true) (Hsc : cf_stepcontrol cfg = false)
    (Hdx : 1 <= cf_dxtol cfg) (Hft : 0 < cf_ftol cfg) (Hxt : 0 < cf_xtol cfg) (Hnf : (2 <= cf_nfev cfg)%Z)
    (Hlim : forall x, length x = 2%nat -> beyond_limit cfg x = Ok false)
    (Hj : (Z.abs j = 1)%Z /\ F <> 0 \/ (Z.abs j = 2)%Z /\ k <> 0) (Hd : comp j d1 d2 <> 0).

  Lemma biggest_pair a b : exists i1 v, biggest argsortF [a; b] [d1; d2] = Ok (i1, v).
  Proof.
    unfold biggest, bcast2. cbn [length Nat.eqb map2 bind map]. numR.
    destruct (Hsort (Rabs (a / d1)) (Rabs (b / d2))) as [E0|E0]; rewrite E0.
    - change (py_get [0%nat; 1%nat] (-1)) with (@Ok nat 1%nat). cbn [bind nth_error]. eauto.
    - change (py_get [1%nat; 0%nat] (-1)) with (@Ok nat 0%nat). cbn [bind nth_error]. eauto.
  Qed.

  Notation t1 u lam := (comp j u lam + comp j d1 d2 * IZR (Z.sgn j)).

  Lemma point_endpoint t : endpoint j t (fst (point k fc F j t)) (snd (point k fc F j t)).
  Proof.
    clear - Hj. unfold endpoint, point, comp. revert Hj. generalize k. intros kk [[Hj1 HF]|[Hj1 HK]]; rewrite Hj1; cbn;
      (split; [|reflexivity]); field; assumption.
  Qed.

  Lemma bar_pass u lam us ls z b out an d0 fuel :
    endpoint j (t1 u lam) us ls -> - L < us -> - L < u -> bar_state c ms i F fc an ->
    exists an', recycle solve argsortF gbar kbar cfg [u; lam] d0 None (S fuel) (Rc an z j [d1; d2] b 0 out)
        = Ok (Rc an' z j [d1; d2] (b + 1)%Z 0 out, [us; ls], false) /\
      bar_state c ms i F fc an' /\ bar_at i k us an'.
  Proof.
    intros He Hus Hu Hst. assert (Hj' : (Z.abs j = 1 \/ Z.abs j = 2)%Z) by tauto.
    cbn [recycle rc_j rc_dxmax rc_z rc_an rc_b rc_npre rc_out]. rewrite !comp_get by exact Hj'. cbn [bind]. numR.
    rewrite Z.sub_0_r.
    destruct (bar_newton [u; lam] j (t1 u lam) us ls (cf_ftol cfg) (cf_xtol cfg) (cf_nfev cfg) u lam an
      Hj He Hus Hst Hu eq_refl Hft Hxt Hnf) as (a1 & n & xn & En & _ & S1 & U1).
    rewrite En. cbn [bind no_x no_success no_n]. unfold bcast2 at 1. cbn [length Nat.eqb map2 bind]. numR.
    destruct (biggest_pair (us - u) (ls - lam)) as (i1 & v & Eb). rewrite Eb. cbn [bind Nat.ltb Nat.leb].
    rewrite Hjf, Hsc. cbn [bind]. unfold bcast2 at 1. cbn [length Nat.eqb map2 bind]. numR.
    rewrite comp_get by exact Hj'. cbn [bind].
    assert (Eq : Rabs (comp j ((us - u) / d1) ((ls - lam) / d2)) = 1).
    { destruct He as [_ He]. revert He Hd. unfold comp. destruct Hj as [[Hj1 _]|[Hj1 _]]; rewrite Hj1; cbn; intros He Hd'.
      - replace ((us - u) / d1) with (IZR (Z.sgn j)) by (rewrite He; field; exact Hd').
        rewrite <- abs_IZR. f_equal. lia.
      - replace ((ls - lam) / d2) with (IZR (Z.sgn j)) by (rewrite He; field; exact Hd').
        rewrite <- abs_IZR. f_equal. lia. }
    rewrite Eq. replace (Rleb 1 (cf_dxtol cfg)) with true by (symmetry; apply Rleb_true; exact Hdx).
    cbn [andb].
    destruct (fext_bar [u; lam] j (t1 u lam) true us ls (set_dVmax [d1; d2] a1) Hj' S1 Hus eq_refl) as (a2 & E2 & S2 & U2).
    rewrite E2. cbn [bind]. exists a2. split; [reflexivity|]. split; [exact S2|exact U2].
  Qed.

  (** [n] increments: the controlled component advances by its step limit each
      time, the records lie on the line. *)
  Lemma bar_increments d0 fuel n : forall s u lam,
    ps_x s = [u; lam] -> ps_j s = j -> ps_dxmax s = [d1; d2] -> bar_state c ms i F fc (ps_an s) -> - L < u ->
    (forall m, (1 <= m <= n)%nat -> - L < fst (point k fc F j (comp j u lam + INR m * (comp j d1 d2 * IZR (Z.sgn j))))) ->
    exists s' recs, increments solve argsortF gbar kbar cfg d0 (S fuel) n s = Ok s' /\
      ps_res s' = ps_res s ++ recs /\
      map fst recs = map (fun m => let p := point k fc F j (comp j u lam + INR m * (comp j d1 d2 * IZR (Z.sgn j))) in [fst p; snd p]) (seq 1 n) /\
      (forall x a, In (x, a) recs -> exists v l, x = [v; l] /\ bar_at i k v a /\ a_lpf a = l /\ bar_state c ms i F fc a) /\
      (exists k', ps_out s' = ps_out s ++ repeat MIncr k').
  Proof.
    induction n as [|n IH]; intros s u lam Hx Hsj Hsd Hst Hu Hn.
    { exists s, []. cbn. rewrite app_nil_r. repeat split; try reflexivity; [intros ? ? []|]. exists 0%nat. cbn. now rewrite app_nil_r. }
    cbn [increments]. unfold increment at 1. rewrite Hjf. cbn [negb]. rewrite andb_false_r, Hx, Hsj, Hsd.
    set (us := fst (point k fc F j (t1 u lam))). set (ls := snd (point k fc F j (t1 u lam))).
    assert (E1 : comp j u lam + INR 1 * (comp j d1 d2 * IZR (Z.sgn j)) = t1 u lam) by (cbn; ring).
    assert (He : endpoint j (t1 u lam) us ls) by apply point_endpoint.
    assert (Hus : - L < us) by (specialize (Hn 1%nat ltac:(lia)); rewrite E1 in Hn; exact Hn).
    destruct (bar_pass u lam us ls 0 (ps_b s) (ps_out s ++ [MIncr]) (ps_an s) d0 fuel He Hus Hu Hst) as (a' & Er & S' & U').
    rewrite Er. cbn [bind rc_an rc_j rc_dxmax rc_b rc_out].
    cbn [ps_x]. rewrite Hlim by reflexivity. cbn [bind].
    set (s1 := Pf _ _ _ _ _ _ _ _).
    destruct (IH s1 us ls eq_refl eq_refl eq_refl S' Hus) as (s' & recs & Hs' & Hres & Hm & Hall & k' & Hout).
    { intros m Hm. specialize (Hn (S m) ltac:(lia)).
      replace (comp j us ls + _) with (comp j u lam + INR (S m) * (comp j d1 d2 * IZR (Z.sgn j))); [exact Hn|].
      destruct He as [_ ->]. rewrite S_INR. ring. }
    exists s'. eexists. split; [exact Hs'|]. split; [rewrite Hres; cbn [s1 ps_res]; rewrite <- app_assoc; reflexivity|].
    split.
    { cbn [app map seq fst]. rewrite E1. cbv zeta. fold us ls. f_equal. rewrite Hm, <- (seq_shift n 1), map_map. apply map_ext.
      intros m. destruct He as [_ ->]. rewrite S_INR. cbv zeta.
      replace (comp j u lam + (INR m + 1) * (comp j d1 d2 * IZR (Z.sgn j)))
        with (t1 u lam + INR m * (comp j d1 d2 * IZR (Z.sgn j))) by ring. reflexivity. }
    split.
    { intros x a [E0|Hin]; [|apply Hall; exact Hin]. injection E0 as <- <-. exists us, ls.
      split; [reflexivity|]. split; [exact U'|]. split; [reflexivity|exact S']. }
    exists (S k'). rewrite Hout. cbn [s1 ps_out]. rewrite <- app_assoc. reflexivity.
  Qed.

  Lemma bar_pathfollow u0 an dx jp fuel :
    bar_state c ms i F fc an -> - L < u0 -> expand_dxmax 2 dx = [d1; d2] ->
    (forall m, (1 <= m <= Z.to_nat (cf_incs cfg))%nat ->
       - L < fst (point k fc F j (comp j u0 0 + INR m * (comp j d1 d2 * IZR (Z.sgn j))))) ->
    exists s recs, pathfollow solve argsortF gbar kbar [u0] an dx (Some j) jp cfg (S fuel) = Ok s /\
      ps_res s = ([u0; 0], an) :: recs /\
      map fst recs = map (fun m => let p := point k fc F j (comp j u0 0 + INR m * (comp j d1 d2 * IZR (Z.sgn j))) in [fst p; snd p])
                         (seq 1 (Z.to_nat (cf_incs cfg))) /\
      (forall x a, In (x, a) recs -> exists v l, x = [v; l] /\ bar_at i k v a /\ a_lpf a = l /\ bar_state c ms i F fc a) /\
      (exists k', ps_out s = repeat MIncr k').
  Proof.
    intros Hst Hu He Hn. unfold pathfollow. rewrite Hjf. cbn [negb app length]. rewrite He.
    destruct (bar_increments [d1; d2] fuel (Z.to_nat (cf_incs cfg)) (Pf an [u0; 0] j jp [d1; d2] 4 [([u0; 0], an)] [])
      u0 0 eq_refl eq_refl eq_refl Hst Hu Hn) as (s & recs & Hs & Hr & Hrest).
    exists s, recs. split; [exact Hs|]. split; [exact Hr|]. exact Hrest.
  Qed.
End Bar.
