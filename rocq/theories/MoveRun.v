(** * Lemmas behind: how far a converged increment moves *)
From Coq Require Import List ZArith Bool Arith Lia Permutation Reals Lra.
Import ListNotations.
From Verif Require Import Num NumR Vec Handlers Material Analysis Truss Equil Solver Run ListFacts SpecMech SpecBuild
  SpecSolver SpecStep SolverFacts PathFacts StepFacts SpecState SpecRun SpecRunR RunFacts RecFacts ReachFacts SessionFacts RunProps PropRun.

Local Open Scope R_scope.

Lemma within_moves (cfg : pfcfg R) x0 x d j : cf_jfixed cfg = false -> length x = length x0 -> length d = length x ->
  (2 <= length x)%nat -> within cfg x0 x d j -> forall i xi yi di, nth_error x i = Some xi -> nth_error x0 i = Some yi -> nth_error d i = Some di -> di <> 0 ->
  Rabs (xi - yi) <= cf_dxtol cfg * Rabs di.
Proof.
  intros Hj L1 L2 L3 (Dx & q & B1 & B2 & H) i xi yi di E1 E2 E3 Hd. rewrite Hj in H.
  rewrite bcast2_same in B1 by exact L1. injection B1 as <-.
  assert (LD : length (map2 fsub x x0) = length x) by (apply map2_len; lia).
  rewrite bcast2_same in B2 by (unfold fsub; cbn in *; congruence). injection B2 as <-.
  assert (Hin : In ((xi - yi) / di) (map2 fdiv (map2 fsub x x0) d)).
  { revert x0 d i L1 L2 E1 E2 E3 H LD. clear - Hd. induction x as [|a x IH]; intros [|b x0] [|e d] i L1 L2 E1 E2 E3 H LD; try discriminate; [destruct i; discriminate|].
    destruct i as [|i]; cbn in *.
    - injection E1 as ->. injection E2 as ->. injection E3 as ->. left. reflexivity.
    - right. eapply (IH x0 d i); try eassumption; try lia. intros v Hv. apply H. right. exact Hv. }
  specialize (H _ Hin). numR. apply Rleb_true in H. unfold Rdiv in H. rewrite Rabs_mult, Rabs_inv in H.
  assert (P : 0 < Rabs di) by (apply Rabs_pos_lt; exact Hd).
  apply (Rmult_le_reg_r (/ Rabs di)); [apply Rinv_0_lt_compat, P|]. rewrite Rmult_assoc, Rinv_r by lra. lra.
Qed.

Section Moves.
  Variables (argsortZ : list Z -> list nat) (argsortF : list R -> list nat) (solve : list (list R) -> list R -> list R).

  Lemma moves_all P m ns ms bs fs m1 fuel m2 out logs (I : Z -> list R -> Prop) :
    argsort_ok argsortZ -> described m ns ms bs fs -> session argsortF solve argsortZ P m m1 ->
    ran_as argsortF solve m1 fuel m2 out logs -> (forall u, m_built m1 = Some u -> (1 <= u_ndof1 u)%nat) -> s_jfixed (m_set m1) = false ->
    exists u1 nh eh, m_built m1 = Some u1 /\ let c := ctx_of m1 u1 nh eh in
      ((forall incs xl, let cfg := pf_config (m_set m1) xl incs in
       let n := S (u_ndof1 u1) in
       keeps_I solve argsortF (equilibrium c) (stiffness c) cfg (expand_dxmax n (DxVec [s_du (m_set m1); s_dlpf (m_set m1)])) I /\
       I (first_j cfg n (s_j0 (m_set m1))) (expand_dxmax n (DxVec [s_du (m_set m1); s_dlpf (m_set m1)]))) ->
      (forall j d, I j d -> length d = S (u_ndof1 u1)) ->
      forall lg, In lg logs -> exists recs, good_part lg recs /\
      along (fun x0 a0 x a => length x = S (u_ndof1 u1) /\ length x0 = S (u_ndof1 u1) /\
        (x = x0 \/ I (a_j a) (a_dVmax a) /\
           forall i xi yi di, nth_error x i = Some xi -> nth_error x0 i = Some yi -> nth_error (a_dVmax a) i = Some di -> di <> 0 ->
             Rabs (xi - yi) <= s_dxtol (m_set m1) * Rabs di))
        (a_Ured (lg_start lg) ++ [f0]) (lg_start lg) recs).
  Proof.
    intros HA Hd HS Hran H1 Hj.
    destruct (session_logs _ _ _ _ _ _ _ _ _ _ _ _ _ _ HA Hd HS Hran)
      as (c & D0 & D1 & w & u1 & Htr & Hlab & Eu & Hnd & _ & (nh & eh & En & Ee & Ec) & (mb & ub & Eb & Eub & ED0 & ED1) & fh & _ & _ & _ & Hlogs).
    specialize (H1 _ Eu). exists u1, nh, eh. split; [exact Eu|]. cbv zeta. rewrite <- Ec.
    intros HI HIl lg Hin. apply In_nth_error in Hin. destruct Hin as [k Hk].
    destruct (Hlogs _ _ Hk) as ((Hr & Hl & Hrecs & _) & Hrn & Hsh & _).
    assert (El : length (a_Ured (lg_start lg) ++ [f0]) = S (c_ndof1 c)) by (rewrite app_length, (Hl ltac:(lia)); cbn; lia).
    eapply (step_kinds_I argsortF solve c _ _ _ lg I) in Hrn; [|intros incs xl; cbv zeta; rewrite El, Hnd; apply HI].
    destruct Hrn as (incs & xl & recs & Hg & Hal & Hlast). cbv zeta in *. exists recs. split; [exact Hg|].
    eapply (along_impl _ _ (fun x a => length x = S (c_ndof1 c))) in Hal; [apply Hal|exact El|].
    intros x0 a0 x a Hx0 Hk2.
    assert (Hka : kany solve c (pf_config (m_set m1) xl incs) (s_jpre (m_set m1)) x0 a0 x a) by (unfold kany; tauto).
    assert (Hx : length x = S (c_ndof1 c)) by (rewrite (kany_length _ _ _ _ _ _ _ _ Hka); lia).
    split; [exact Hx|]. split; [lia|]. split; [lia|]. destruct Hk2 as [(Hk2 & Hi)|Hk2]; [right|left].
    - split; [exact Hi|]. pose proof (HIl _ _ Hi) as Ld.
      destruct Hk2 as (j & dxmax & xmax & xs & nfev & an & ts & t & an2 & v & _ & _ & San & St & Hc & Hcv & Hxt & _ & Hw & Hf & ->).
      apply f_ext_j in Hf. destruct Hf as [_ Hf].
      match type of Ld with length ?d = _ => assert (Ed : d = dxmax) by (etransitivity; [|exact Hf]; reflexivity) end. rewrite Ed in *.
      apply (within_moves (pf_config (m_set m1) xl incs) x0 x dxmax j); auto; lia.
    - apply kskp_same in Hk2. tauto.
  Qed.
End Moves.
