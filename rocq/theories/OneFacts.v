(** * Trusses with one active displacement under displacement control *)
From Coq Require Import List ZArith Bool Arith Lia Reals Lra.
Import ListNotations.
From Verif Require Import Num NumR Vec Handlers Material Analysis Truss Equil Solver Run ListFacts SpecMaterial SpecMech SpecMechR EquilFacts
  MechFacts StiffFacts TangentFacts SpecState FrameFacts EvalFacts SpecBar BarFacts SpecSolver PropMech RunProps MaterialFacts LoadFacts SpecOne.
Local Open Scope R_scope.

Section One.
  Variables (c : ctx R) (ms : list (member R)) (p : nat).
  Hypotheses (Hok : truss_ok c ms) (Hn : c_ndof1 c = 1%nat).

  Notation fit := (one_free c ms p).

  (** Same load step, same locked displacements and same state variables. *)
  Definition like (a0 an : analysis R) : Prop :=
    same_setup a0 an /\ sizes_ok c ms an /\ a_state an = a_state a0.

  Lemma props_state a0 an : a_state an = a_state a0 -> props_ok c ms a0 -> props_ok c ms an.
  Proof. intros E H k m Hm. specialize (H k m Hm). unfold state_row in *. now rewrite E. Qed.

  Lemma same_fit F a0 an : fit F a0 -> same_setup a0 an -> sizes_ok c ms an -> props_ok c ms an -> fit F an.
  Proof.
    intros (S1 & S2 & S3 & S4 & S5 & S6) (_ & _ & D & F0 & C & Fo & _) Hs HP.
    unfold one_free, loads_ok in *. rewrite D, F0, C, Fo. repeat match goal with |- _ /\ _ => split end; tauto.
  Qed.

  Lemma like_fit F a0 an : fit F a0 -> like a0 an -> fit F an.
  Proof.
    intros H (S & Hs & E). eapply same_fit; try eassumption. eapply props_state; [exact E|apply H].
  Qed.

  Lemma like_refl a0 : sizes_ok c ms a0 -> like a0 a0.
  Proof. intros H. split; [apply same_refl|]. auto. Qed.
  Lemma like_trans a b d : like a b -> like b d -> like a d.
  Proof. intros (S1 & H1 & E1) (S2 & H2 & E2). split; [eapply same_trans; eassumption|]. split; [exact H2|congruence]. Qed.

  (** Load needed at displacement [u], apart from the load factor. *)
  Definition gap (a0 : analysis R) (u : R) : R := nth 0 (value (equilibrium c [u; 0] [0; 0] false a0)) 0.

  Lemma props_written V V0 w an an' g : sizes_ok c ms an -> props_ok c ms an ->
    equilibrium c V V0 w an = Ok (an', g) -> props_ok c ms an'.
  Proof.
    intros Hsz HP He. destruct w.
    2:{ eapply props_state; [|exact HP]. apply (equilibrium_same _ _ _ _ _ _ _ He). reflexivity. }
    intros k m Hm. destruct (HP k m Hm) as [Hg HL]. split; [exact Hg|].
    destruct (mb_law m) eqn:El; [exact HL|]. destruct HL as [H3 (y & q & r & Er)]. split; [exact H3|].
    unfold state_row in *. destruct (0 <? c_nstatev c)%Z eqn:En; [|discriminate]. apply Z.ltb_lt in En.
    destruct (a_state an) as [sv|] eqn:Es; [|discriminate].
    destruct (state_written _ _ _ _ _ _ _ _ Hok Hsz He En Es) as (sv' & E1 & E2 & E3).
    destruct (E3 k m Hm) as (row & row' & lam & st & de & ds & G1 & G2 & G3 & G4 & G5).
    rewrite E1, G2. assert (row = y :: q :: r) by congruence. subst row. rewrite El in G5. cbn [umat] in G5.
    destruct (mb_mat m) as [|E [|K [|Sy rest]]]; cbn in H3; try lia. rewrite umat_pl_pad in G5.
    destruct (umat_pl_total E K Sy (fsub lam f1) de y q) as (s & t & y' & q' & Eu). rewrite Eu in G5.
    injection G5 as _ _ <-. eauto.
  Qed.

  Lemma one_residual F a0 an u lam V0 w : fit F a0 -> like a0 an -> length V0 = 2%nat ->
    exists an', equilibrium c [u; lam] V0 w an = Ok (an', [gap a0 u + lam * F]) /\
      same_setup a0 an' /\ sizes_ok c ms an' /\ props_ok c ms an' /\ (w = false -> a_state an' = a_state a0) /\
      gather (vflat (a_U an')) [p] = Ok [u].
  Proof.
    intros Hf0 Hl HV. pose proof (like_fit _ _ _ Hf0 Hl) as Hf.
    pose proof Hf0 as (Z1 & Z2 & Z3 & Z4 & Z5 & Z6). pose proof Hf as (S1 & S2 & S3 & S4 & S5 & S6).
    destruct Hl as (Hs & _ & Est).
    destruct (C15_evaluations_succeed c ms an Hok S1 S2 S3) as [Hev _].
    destruct (C15_evaluations_succeed c ms a0 Hok Z1 Z2 Z3) as [Hev0 _].
    destruct (Hev [u; lam] V0 w) as (an' & g & He); [rewrite Hn; reflexivity|rewrite Hn; exact HV|].
    destruct (Hev0 [u; 0] [0; 0] false) as (a0' & g0 & He0); [rewrite Hn; reflexivity..|].
    destruct (C15_residual c ms [u; lam] V0 w an an' g Hok S1 S2 ltac:(rewrite Hn; reflexivity) He) as (Hsc & Hlen & Hres).
    destruct (C15_residual c ms [u; 0] [0; 0] false a0 a0' g0 Hok Z1 Z2 ltac:(rewrite Hn; reflexivity) He0) as (Hsc0 & Hlen0 & Hres0).
    rewrite S4 in *. rewrite Z4 in *. rewrite Hn in Hsc, Hsc0. cbn [firstn] in Hsc, Hsc0.
    assert (EU : a_U an' = a_U a0').
    { eapply scatter_same; [| |exact Hsc|exact Hsc0].
      - apply Hs.
      - intros k Hk. destruct Hs as (_ & _ & _ & _ & _ & _ & _ & _ & HU & _). apply HU. rewrite Z4. exact Hk. }
    assert (Er : a_r an' = a_r a0').
    { eapply (translation_facts c ms _ _ _ a0 a0' g0 _ _ _ an an' g vzero Hok Z1 S1 Est He0 He).
      intros l _. unfold place. rewrite EU. destruct (vadd _ _). unfold vadd, vmap2; cbn; numR; f_equal; ring. }
    assert (Hp : (p < 3 * length (c_labels c))%nat).
    { destruct S1 as (_ & _ & _ & _ & _ & _ & _ & _ & _ & Hin & _). apply Hin. rewrite S4. left. reflexivity. }
    assert (Hl : exists l, nth_error (c_labels c) (p / 3) = Some l).
    { destruct (nth_error (c_labels c) (p / 3)) eqn:El; [eauto|]. apply nth_error_None in El.
      exfalso. assert (p / 3 < length (c_labels c))%nat by (apply Nat.div_lt_upper_bound; lia). lia. }
    destruct Hl as [l Hl]. specialize (Hres 0%nat p l eq_refl Hl). specialize (Hres0 0%nat p l eq_refl Hl).
    destruct g as [|gv [|? ?]]; cbn in Hlen; try lia. destruct g0 as [|gv0 [|? ?]]; cbn in Hlen0; try lia.
    cbn [nth last] in Hres, Hres0.
    pose proof (equilibrium_same _ _ _ _ _ _ _ He) as (Hsame & Hst & _).
    exists an'. split.
    { rewrite He. f_equal. f_equal. f_equal. unfold gap. rewrite He0. cbn [value nth].
      rewrite Hres, Hres0, Er, S6. destruct Hs as (_ & _ & _ & _ & -> & _). ring. }
    split; [eapply same_trans; eassumption|]. split; [eapply equilibrium_lengths; eassumption|].
    split; [eapply props_written; eassumption|]. split; [intros Hw; rewrite (Hst Hw); exact Est|].
    cbn [gather]. apply scatter_ok in Hsc; [|repeat constructor; auto|reflexivity].
    destruct Hsc as (_ & _ & Hsc). specialize (Hsc 0%nat p eq_refl). cbn [nth_error] in Hsc. rewrite Hsc. reflexivity.
  Qed.

  Lemma one_stiffness F a0 an u : fit F a0 -> like a0 an ->
    exists an' k, stiffness c [u] an = Ok (an', [[k]]) /\ like a0 an'.
  Proof.
    intros Hf0 Hl. pose proof (like_fit _ _ _ Hf0 Hl) as (S1 & S2 & S3 & S4 & S5 & S6).
    destruct (C15_evaluations_succeed c ms an Hok S1 S2 S3) as [_ Hev].
    destruct (Hev [u]) as (an' & K & Heq); [rewrite Hn; reflexivity|].
    pose proof (stiffness_same _ _ _ _ _ Heq) as (Hsame & Est).
    pose proof (stiffness_parts _ _ _ _ _ Heq) as (U & U0 & a2 & HsU & _ & _ & HK & Ea).
    assert (HK1 : exists k, K = [[k]]).
    { assert (HD2 : a_DOF1 a2 = [p]).
      { destruct Hsame as (_ & _ & D & _). rewrite Ea in D. cbn in D. congruence. }
      rewrite HD2 in HK. unfold select2 in HK. apply bind_ok in HK. destruct HK as (rows & Hr & HK).
      apply gather_length in Hr. destruct rows as [|r [|? ?]]; cbn [length] in Hr; try lia.
      cbn [foldM] in HK. mstep HK. mstep Ha. apply gather_length in Ha0.
      injection Ha as <-. injection HK as <-.
      destruct a1 as [|k [|? ?]]; cbn [length] in Ha0; try lia. exists k. reflexivity. }
    destruct HK1 as [k ->]. exists an', k. split; [exact Heq|]. eapply like_trans; [exact Hl|].
    split; [exact Hsame|]. split; [eapply gstiffness_sizes; eassumption|exact Est].
  Qed.

  (** ** Newton *)
  Variables (F : R) (j : Z).
  Hypotheses (HF : F <> 0) (Hj : (Z.abs j = 1)%Z).
  Variable solve : list (list R) -> list R -> list R.
  Hypothesis Hsolve : exact2 solve.

  Lemma one_get (u lam : R) : py_get [u; lam] (Z.abs j - 1) = Ok u.
  Proof. rewrite Hj. reflexivity. Qed.

  Lemma one_fext a0 an V0 xm w u lam : fit F a0 -> like a0 an -> length V0 = 2%nat ->
    exists an', f_ext (equilibrium c) V0 j xm w [u; lam] an = Ok (an', [- (gap a0 u + lam * F); u - xm]) /\
      same_setup a0 an' /\ sizes_ok c ms an' /\ props_ok c ms an' /\ (w = false -> a_state an' = a_state a0) /\
      gather (vflat (a_U an')) [p] = Ok [u].
  Proof.
    intros Hf Hl HV. destruct (one_residual F a0 (set_j j an) u lam V0 w Hf Hl HV) as (an' & He & Hr).
    exists an'. split; [|exact Hr]. unfold f_ext. rewrite He. cbn [bind]. rewrite one_get. reflexivity.
  Qed.

  Lemma one_fext_like a0 an V0 xm u lam : fit F a0 -> like a0 an -> length V0 = 2%nat ->
    exists an', f_ext (equilibrium c) V0 j xm false [u; lam] an = Ok (an', [- (gap a0 u + lam * F); u - xm]) /\ like a0 an'.
  Proof.
    intros Hf Hl HV. destruct (one_fext a0 an V0 xm false u lam Hf Hl HV) as (an' & He & H1 & H2 & _ & H3 & _).
    exists an'. split; [exact He|]. split; [exact H1|]. auto.
  Qed.

  Lemma one_dfdx a0 an u lam : fit F a0 -> like a0 an ->
    exists an' k, dfdx (stiffness c) j [u; lam] an = Ok (an', [[k; - F]; [1; 0]]) /\ like a0 an'.
  Proof.
    intros Hf Hl. destruct (one_stiffness F a0 (set_j j an) u Hf Hl) as (an' & k & He & Hl').
    exists (set_Kmod [[k; - F]; [1; 0]] an'), k. split; [|exact Hl'].
    unfold dfdx. cbn [length].
    assert (Eq : ctrl_row (F:=R) 2 j = Ok [1; 0]) by (unfold ctrl_row; rewrite Hj; reflexivity).
    rewrite Eq. cbn [bind removelast]. rewrite He. cbn [bind].
    destruct (like_fit _ _ _ Hf Hl') as (_ & _ & _ & _ & Hf0 & _). rewrite Hf0. reflexivity.
  Qed.

  Lemma one_solve k r s : exists y, solve [[k; - F]; [1; 0]] [r; s] = [s; y] /\ k * s - F * y = r.
  Proof.
    destruct (Hsolve k (- F) 1 0 r s) as (x & y & E & H1 & H2); [lra|].
    assert (x = s) by lra. subst x. exists y. split; [exact E|]. lra.
  Qed.

  Lemma norm2 a : fnorm [a; 0] = Rabs a.
  Proof.
    unfold fnorm, fdot. numR. replace (a * a + (0 * 0 + 0)) with (Rsqr a) by (unfold Rsqr; ring). apply sqrt_Rsqr_abs.
  Qed.

  (** One iteration: the displacement is the prescribed one afterwards; if it was
      before, the residual vanishes. *)
  Lemma one_iter a0 V0 us ftol xtol n nn u lam prev an :
    fit F a0 -> like a0 an -> length V0 = 2%nat ->
    exists an' lam', like a0 an' /\
      (u = us -> gap a0 us + lam' * F = 0 /\ (gap a0 us + lam * F = 0 -> lam' = lam)) /\
      newton_loop solve (f_ext (equilibrium c) V0 j us false) (dfdx (stiffness c) j) ftol xtol (S n) nn [u; lam] prev an =
      if Rltb (Rabs (gap a0 us + lam' * F)) ftol && Rltb (fnorm [us - u; lam' - lam]) xtol
      then Ok (an', NOut [us; lam'] true (nn + 1)%Z (Rabs (gap a0 us + lam' * F)) (fnorm [us - u; lam' - lam]))
      else newton_loop solve (f_ext (equilibrium c) V0 j us false) (dfdx (stiffness c) j) ftol xtol n (nn + 1)%Z [us; lam']
             (Some (Rabs (gap a0 us + lam' * F), fnorm [us - u; lam' - lam])) an'.
  Proof.
    intros Hf Hl HV.
    destruct (one_dfdx a0 an u lam Hf Hl) as (a1 & k & D1 & S1).
    destruct (one_fext_like a0 a1 V0 us u lam Hf S1 HV) as (a2 & D2 & S2).
    destruct (one_solve k (- - (gap a0 u + lam * F)) (- (u - us))) as (y & Ey & Hy).
    destruct (one_fext_like a0 a2 V0 us us (lam + y) Hf S2 HV) as (a3 & D3 & S3).
    exists a3, (lam + y). split; [exact S3|]. split.
    { intros ->. replace (- (us - us)) with 0 in Hy by ring. split.
      - replace (gap a0 us + (lam + y) * F) with (gap a0 us + lam * F + F * y) by ring. lra.
      - intros H0. assert (F * y = 0) by lra. assert (y = 0) by (apply (Rmult_eq_reg_l F); [lra|exact HF]). lra. }
    cbn [newton_loop]. rewrite D1. cbn [bind]. rewrite D2. cbn [bind map]. numR. rewrite Ey.
    unfold bcast2. cbn [length Nat.eqb map2 bind]. numR.
    replace (u + - (u - us)) with us by ring. rewrite D3. cbn [bind]. rewrite Rminus_eq_0, norm2, Rabs_Ropp.
    replace (lam + y - lam) with y by ring. replace (- (u - us)) with (us - u) by ring. reflexivity.
  Qed.

  Lemma fnorm_zero : fnorm [0; 0] = 0.
  Proof. rewrite norm2. apply Rabs_R0. Qed.

  Lemma one_newton a0 V0 us ftol xtol nfev u lam an :
    fit F a0 -> like a0 an -> length V0 = 2%nat -> 0 < ftol -> 0 < xtol -> (3 <= nfev)%Z ->
    exists an' o lam', newton solve (f_ext (equilibrium c) V0 j us false) (dfdx (stiffness c) j) [u; lam] nfev ftol xtol an = Ok (an', o) /\
      no_success o = true /\ no_x o = [us; lam'] /\ (1 <= no_n o <= 3)%Z /\ Rabs (gap a0 us + lam' * F) < ftol /\ like a0 an'.
  Proof.
    intros Hf Hl HV Hft Hxt Hnf. unfold newton.
    replace (Z.to_nat nfev) with (S (S (S (Z.to_nat (nfev - 3))))) by lia.
    destruct (one_iter a0 V0 us ftol xtol (S (S (Z.to_nat (nfev - 3)))) 0 u lam None an Hf Hl HV) as (a1 & l1 & S1 & _ & ->).
    destruct (_ && _) eqn:E1.
    { apply andb_true_iff in E1. destruct E1 as [E1 _]. apply Rltb_true in E1.
      exists a1, (NOut [us; l1] true (0 + 1) (Rabs (gap a0 us + l1 * F)) (fnorm [us - u; l1 - lam])), l1. cbn. repeat split; auto; lia || apply S1. }
    clear E1. match goal with |- context [Some ?pr] => set (pr1 := Some pr) end.
    destruct (one_iter a0 V0 us ftol xtol (S (Z.to_nat (nfev - 3))) (0 + 1) us l1 pr1 a1 Hf S1 HV) as (a2 & l2 & S2 & R2 & ->).
    destruct (R2 eq_refl) as [R2a _].
    destruct (_ && _) eqn:E2.
    { exists a2, (NOut [us; l2] true (0 + 1 + 1) (Rabs (gap a0 us + l2 * F)) (fnorm [us - us; l2 - l1])), l2. cbn.
      rewrite R2a, Rabs_R0. repeat split; auto; lia || apply S2. }
    clear E2. match goal with |- context [Some ?pr] => set (pr2 := Some pr) end.
    destruct (one_iter a0 V0 us ftol xtol (Z.to_nat (nfev - 3)) (0 + 1 + 1) us l2 pr2 a2 Hf S2 HV) as (a3 & l3 & S3 & R3 & ->).
    destruct (R3 eq_refl) as [R3a R3b]. rewrite (R3b R2a) in *. rewrite !Rminus_eq_0, R2a, Rabs_R0, fnorm_zero.
    replace (Rltb 0 ftol) with true by (symmetry; apply Rltb_true; exact Hft).
    replace (Rltb 0 xtol) with true by (symmetry; apply Rltb_true; exact Hxt). cbn [andb].
    exists a3, (NOut [us; l2] true (0 + 1 + 1 + 1) 0 0), l2. cbn. rewrite R2a, Rabs_R0. repeat split; auto; lia || apply S3.
  Qed.

  (** ** The path *)
  Variables (argsortF : list R -> list nat) (cfg : pfcfg R) (d1 d2 : R).
  Hypotheses (Hsort : sorts_pairs argsortF) (Hjf : cf_jfixed cfg = true) (Hsc : cf_stepcontrol cfg = false)
    (Hdx : 1 <= cf_dxtol cfg) (Hft : 0 < cf_ftol cfg) (Hxt : 0 < cf_xtol cfg) (Hnf : (3 <= cf_nfev cfg)%Z)
    (Hlim : forall x, length x = 2%nat -> beyond_limit cfg x = Ok false) (Hd : d1 <> 0).
  Notation adv := (d1 * IZR (Z.sgn j)).

  Definition driven_to (u lam : R) (a : analysis R) : Prop :=
    gather (vflat (a_U a)) (a_DOF1 a) = Ok [u] /\ exists r, gather (a_g a) (a_DOF1 a) = Ok [r] /\ Rabs r < cf_ftol cfg.

  Lemma eval_residual V V0 w an an' gr : equilibrium c V V0 w an = Ok (an', gr) -> gather (a_g an') (a_DOF1 an') = Ok gr.
  Proof.
    intros H. apply equilibrium_parts in H. destruct H as (U & U0 & a2 & _ & _ & _ & _ & Hg & Ea). rewrite Ea. exact Hg.
  Qed.

  Lemma one_pass u lam z b out an d0 fuel : fit F an ->
    exists an' lam', recycle solve argsortF (equilibrium c) (stiffness c) cfg [u; lam] d0 None (S fuel) (Rc an z j [d1; d2] b 0 out)
        = Ok (Rc an' z j [d1; d2] (b + 1)%Z 0 out, [u + adv; lam'], false) /\
      fit F an' /\ driven_to (u + adv) lam' an'.
  Proof.
    intros Hf. cbn [recycle rc_j rc_dxmax rc_z rc_an rc_b rc_npre rc_out]. rewrite !one_get. cbn [bind]. numR.
    rewrite Z.sub_0_r.
    destruct (one_newton an [u; lam] (u + adv) (cf_ftol cfg) (cf_xtol cfg) (cf_nfev cfg) u lam an Hf
      (like_refl _ (proj1 Hf)) eq_refl Hft Hxt Hnf) as (a1 & o & lam' & En & Es & Ex & _ & Hr & S1).
    rewrite En. cbn [bind]. rewrite Es, Ex. unfold bcast2 at 1. cbn [length Nat.eqb map2 bind]. numR.
    destruct (biggest_pair argsortF d1 d2 Hsort (u + adv - u) (lam' - lam)) as (i1 & v & Eb).
    rewrite Eb. cbn [bind Nat.ltb Nat.leb].
    rewrite Hjf, Hsc. cbn [bind]. unfold bcast2 at 1. cbn [length Nat.eqb map2 bind]. numR.
    rewrite one_get. cbn [bind].
    replace (Rabs ((u + adv - u) / d1)) with 1.
    2:{ replace ((u + adv - u) / d1) with (IZR (Z.sgn j)) by (field; exact Hd). rewrite <- abs_IZR. f_equal. lia. }
    replace (Rleb 1 (cf_dxtol cfg)) with true by (symmetry; apply Rleb_true; exact Hdx). cbn [andb].
    assert (S1' : like an (set_dVmax [d1; d2] a1)) by exact S1.
    destruct (one_fext an (set_dVmax [d1; d2] a1) [u; lam] (u + adv) true (u + adv) lam' Hf S1' eq_refl)
      as (a2 & E2 & T1 & T2 & T3 & _ & T5).
    rewrite E2. cbn [bind]. exists a2, lam'. split; [reflexivity|].
    assert (Hf2 : fit F a2) by (eapply same_fit; eassumption). split; [exact Hf2|].
    pose proof Hf2 as (_ & _ & _ & D2 & _). split; [rewrite D2; exact T5|].
    unfold f_ext in E2. destruct (equilibrium c [u + adv; lam'] [u; lam] true _) as [[a3 gr]| |] eqn:E3; try discriminate.
    cbn [bind] in E2. rewrite one_get in E2. cbn [bind] in E2. injection E2 as E4 E5. subst a3.
    exists (gap an (u + adv) + lam' * F). split; [|exact Hr].
    rewrite (eval_residual _ _ _ _ _ _ E3). destruct gr as [|g0 [|? ?]]; cbn in E5; try discriminate.
    - injection E5 as E5. do 2 f_equal. numR. lra.
    - destruct l; discriminate.
  Qed.

  Lemma one_increments d0 fuel n : forall s u lam,
    ps_x s = [u; lam] -> ps_j s = j -> ps_dxmax s = [d1; d2] -> fit F (ps_an s) ->
    exists s' recs, increments solve argsortF (equilibrium c) (stiffness c) cfg d0 (S fuel) n s = Ok s' /\
      ps_res s' = ps_res s ++ recs /\ length recs = n /\
      (forall q x a, nth_error recs q = Some (x, a) ->
         exists l, x = [u + INR (S q) * adv; l] /\ a_lpf a = l /\ a_Ured a = [u + INR (S q) * adv] /\ fit F a /\
           driven_to (u + INR (S q) * adv) l a) /\
      (exists k', ps_out s' = ps_out s ++ repeat MIncr k').
  Proof.
    induction n as [|n IH]; intros s u lam Hx Hsj Hsd Hf.
    { exists s, []. cbn. rewrite app_nil_r. repeat split; try reflexivity; [intros [|q] ? ? ?; discriminate|].
      exists 0%nat. cbn. now rewrite app_nil_r. }
    cbn [increments]. unfold increment at 1. rewrite Hjf. cbn [negb]. rewrite andb_false_r, Hx, Hsj, Hsd.
    destruct (one_pass u lam 0 (ps_b s) (ps_out s ++ [MIncr]) (ps_an s) d0 fuel Hf) as (a' & lam' & Er & Hf' & HU').
    rewrite Er. cbn [bind rc_an rc_j rc_dxmax rc_b rc_out].
    cbn [ps_x]. rewrite Hlim by reflexivity. cbn [bind].
    set (s1 := Pf _ _ _ _ _ _ _ _).
    destruct (IH s1 (u + adv) lam' eq_refl eq_refl eq_refl Hf') as (s' & recs & Hs' & Hres & Hlen & Hall & k' & Hout).
    exists s'. eexists. split; [exact Hs'|]. split; [rewrite Hres; cbn [s1 ps_res]; rewrite <- app_assoc; reflexivity|].
    split; [cbn [app length]; now rewrite Hlen|]. split.
    { intros [|q] x a Hq; cbn [app nth_error] in Hq.
      - injection Hq as <- <-. replace (u + INR 1 * adv) with (u + adv) by (cbn; ring). exists lam'.
        split; [reflexivity|]. split; [reflexivity|]. split; [reflexivity|]. split; [exact Hf'|exact HU'].
      - destruct (Hall q x a Hq) as (l & Hl). exists l.
        replace (u + INR (S (S q)) * adv) with (u + adv + INR (S q) * adv) by (rewrite (S_INR (S q)); ring). exact Hl. }
    exists (S k'). rewrite Hout. cbn [s1 ps_out]. rewrite <- app_assoc. reflexivity.
  Qed.

  Lemma one_pathfollow u0 an jp fuel : fit F an ->
    exists s recs, pathfollow solve argsortF (equilibrium c) (stiffness c) [u0] an (DxVec [d1; d2]) (Some j) jp cfg (S fuel) = Ok s /\
      ps_res s = ([u0; 0], an) :: recs /\ length recs = Z.to_nat (cf_incs cfg) /\
      (forall q x a, nth_error recs q = Some (x, a) ->
         exists l, x = [u0 + INR (S q) * adv; l] /\ a_lpf a = l /\ a_Ured a = [u0 + INR (S q) * adv] /\ fit F a /\
           driven_to (u0 + INR (S q) * adv) l a) /\
      (exists k', ps_out s = repeat MIncr k').
  Proof.
    intros Hf. unfold pathfollow. rewrite Hjf. cbn [negb app length].
    assert (Hx : expand_dxmax 2 (DxVec [d1; d2]) = [d1; d2]).
    { cbn. now rewrite Rmult_1_r || (unfold expand_dxmax; cbn; f_equal; numR; lra). }
    rewrite Hx.
    destruct (one_increments [d1; d2] fuel (Z.to_nat (cf_incs cfg)) (Pf an [u0; 0] j jp [d1; d2] 4 [([u0; 0], an)] [])
      u0 0 eq_refl eq_refl eq_refl Hf) as (s & recs & Hs & Hr & Hrest).
    exists s, recs. split; [exact Hs|]. split; [exact Hr|]. exact Hrest.
  Qed.
End One.
