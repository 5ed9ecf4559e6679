(** * C53: displacement control of trusses with one free degree of freedom

    Exact arithmetic, any truss: any number of members, elastic or plastic, of any
    stiffness, including limit points and snap-through.  The linear solver is any
    function that solves regular 2x2 systems.  Division by zero is a total function
    on the reals here, so the residual of a bar collapsed to a point is some number;
    the theorems say nothing useful about it. *)
From Coq Require Import List ZArith Bool Arith Lia Reals Lra.
Import ListNotations.
From Verif Require Import Num NumR TolFacts Vec Handlers Material Analysis Truss Equil Solver Run ListFacts SpecMaterial SpecMech SpecMechR SpecBuild SpecSolver
  SpecRun RunFacts RunProps SessionFacts EditFacts SpecBar SpecHistory HistoryFacts PropHistory PropBar SpecOne OneFacts OneRun TensionFacts MaterialFacts.
Local Open Scope R_scope.

(** With the displacement locked as control component Newton ends successfully
    after at most three iterations, from any start, whatever the tangent stiffness:
    the displacement is the prescribed one and the residual is below ftol. *)
Theorem C53_newton : forall c ms p F solve an V0 j us ftol xtol nfev u lam,
  truss_ok c ms -> c_ndof1 c = 1%nat -> one_free c ms p F an -> F <> 0 -> (Z.abs j = 1)%Z -> exact2 solve ->
  length V0 = 2%nat -> 0 < ftol -> 0 < xtol -> (3 <= nfev)%Z ->
  exists an' o lam', newton solve (f_ext (equilibrium c) V0 j us false) (dfdx (stiffness c) j) [u; lam] nfev ftol xtol an = Ok (an', o) /\
    no_success o = true /\ (1 <= no_n o <= 3)%Z /\ no_x o = [us; lam'] /\
    forall w, exists an2 r, equilibrium c [us; lam'] V0 w an = Ok (an2, [r]) /\ Rabs r < ftol.
Proof.
  intros c ms p F solve an V0 j us ftol xtol nfev u lam Hok Hn Hf HF Hj Hs HV Hft Hxt Hnf.
  destruct (one_newton c ms p Hok Hn F j HF Hj solve Hs an V0 us ftol xtol nfev u lam an Hf (like_refl c ms an (proj1 Hf)) HV Hft Hxt Hnf)
    as (an' & o & lam' & E & E1 & E2 & E3 & E4 & _).
  exists an', o, lam'. split; [exact E|]. split; [exact E1|]. split; [exact E3|]. split; [exact E2|]. intros w.
  destruct (one_residual c ms p Hok Hn F an an us lam' V0 w Hf (like_refl c ms an (proj1 Hf)) HV) as (an2 & Er & _).
  eexists _, _. split; [exact Er|exact E4].
Qed.
Print Assumptions C53_newton.

(** Every run under displacement control, at any point of a session, returns
    without an ERROR line.  Each step has all its increments; the [q]-th moves the
    free component by du in the direction of the sign of j, exactly, so that after
    the run it has moved by the number of increments of all steps times du. *)
Theorem C53_run : forall argsortZ argsortF solve (P : settings R -> Prop) m ns ms bs fs m1 u1 p fh j n kl fuel,
  argsort_ok argsortZ -> sorts_pairs argsortF -> exact2 solve -> described m ns ms bs fs -> members_ok ms ->
  (forall st, P st -> (0 < s_nsteps st)%Z) -> session argsortF solve argsortZ P m m1 ->
  m_built m1 = Some u1 -> a_DOF1 (u_an u1) = [p] -> m_forces m1 = Some fh ->
  disp_control (m_set m1) j -> (0 < s_nsteps (m_set m1))%Z ->
  (forall r, In r (e_rows fh) -> (3 * Z.to_nat (s_nsteps (m_set m1)) <= length r)%nat) ->
  (forall k, (k < Z.to_nat (s_nsteps (m_set m1)))%nat ->
     nth p (concat (columns k (e_rows fh))) 0 <> 0 /\ in_step (s_incs (m_set m1)) k (n k) /\
     in_step (s_xlimit (m_set m1)) k (kl k, None) /\ (-1 <= kl k <= 2)%Z) ->
  let adv := s_du (m_set m1) * IZR (Z.sgn j) in
  exists u0 m2 out logs u2, a_Ured (u_an u1) = [u0] /\ ran_as argsortF solve m1 (S fuel) m2 out logs /\
    (forall k lg, nth_error logs k = Some lg ->
       driven p (powerRZ 10 (- s_ftol (m_set m1))) (u0 + INR (incs_before n k) * adv) adv (Z.to_nat (n k)) lg) /\
    m_built m2 = Some u2 /\ a_DOF1 (u_an u2) = [p] /\
    a_Ured (u_an u2) = [u0 + INR (incs_before n (Z.to_nat (s_nsteps (m_set m1)))) * adv].
Proof.
  intros argsortZ argsortF solve P m ns ms bs fs m1 u1 p fh j n kl fuel H1 H2 H3 H4 H5 H6 H7 H8 H9 H10 H11 H12 H13 H14 adv. rewrite <- ?pow10neg_R.
  destruct (driven_run argsortZ argsortF solve P m ns ms bs fs m1 u1 p fh j n kl fuel H1 H2 H3 H4 H5 H6 H7 H8 H9 H10 H11 H12 H13
    ltac:(intros k Hk; rewrite !at_step_in; apply H14, Hk))
    as (u0 & m2 & out & logs & E1 & E2 & E3 & u2 & E4 & E5 & E6).
  exists u0, m2, out, logs, u2. auto 10.
Qed.
Print Assumptions C53_run.

(** A material test: a bar of length L of an elastic-plastic material, pulled and
    pushed under displacement control in any number of runs (recs: the increments of
    the earlier runs).  As long as the bar is not turned inside out, the next run
    succeeds, its increments prescribe the strain u / L exactly, the load factor
    times F is the area times the stress up to ftol, and over the whole session the
    stresses are those of the elastic-plastic law for the prescribed strains. *)
Theorem C53_tensile : forall argsortZ argsortF solve i p L E K Sy A F st m1 recs j n kl fuel,
  argsort_ok argsortZ -> sorts_pairs argsortF -> exact2 solve -> (i < 3)%nat -> 0 < L -> F <> 0 ->
  traced argsortF solve argsortZ locked_run (tension_model i p L E K Sy A F st) m1 recs ->
  disp_control (m_set m1) j -> s_nsteps (m_set m1) = 1%Z -> s_incs (m_set m1) = Same n ->
  s_xlimit (m_set m1) = Same (kl, None) -> (-1 <= kl <= 2)%Z ->
  let adv := s_du (m_set m1) * IZR (Z.sgn j) in
  exists u1 u0, m_built m1 = Some u1 /\ a_Ured (u_an u1) = [u0] /\
    ((forall q, (1 <= q <= Z.to_nat n)%nat -> - L < u0 + INR q * adv) ->
     exists m2 out new u2, run argsortF solve m1 (S fuel) = Ok (m2, out) /\ (forall e, In e out -> ~ error_line e) /\
       traced argsortF solve argsortZ locked_run (tension_model i p L E K Sy A F st) m2 (recs ++ new) /\
       length new = Z.to_nat n /\
       (forall q a, nth_error new q = Some a ->
         let u := u0 + INR (S q) * adv in
         a_U a = [vzero; along_axis i u] /\ member_strain 0 a = u / L /\
         Rabs (a_lpf a * F - A * m_stress (plastic_out 0 a)) < powerRZ 10 (- s_ftol (m_set m1))) /\
       m_built m2 = Some u2 /\ a_Ured (u_an u2) = [u0 + INR (Z.to_nat n) * adv] /\
       mat_run [E; K; Sy] (map (member_strain 0) (recs ++ new)) (map (plastic_out 0) (recs ++ new))).
Proof.
  intros argsortZ argsortF solve i p L E K Sy A F st m1 recs j n kl fuel H1 H2 H3 H4 H5 H6 H7 H8 H9 H10 H11 H12 adv. rewrite <- ?pow10neg_R.
  destruct (tension_run argsortZ argsortF solve i p L E K Sy A F st H1 H2 H3 H4 H5 H6 m1 recs j n kl fuel H7 H8 H9 H10 H11 H12)
    as (u1 & u0 & E1 & E2 & E3).
  exists u1, u0. split; [exact E1|]. split; [exact E2|]. intros Hp.
  destruct (E3 Hp) as (m2 & out & new & u2 & R1 & R2 & R3 & R4 & R5 & R6 & R7).
  exists m2, out, new, u2. do 4 (split; [assumption|]). split; [exact R7|]. split; [exact R5|]. split; [exact R6|].
  apply (C52_plastic argsortZ argsortF solve (tension_model i p L E K Sy A F st) _ [Mb 1 1 2 UmatPl [E; K; Sy] [A]] _ _ m2 _ 0 (Mb 1 1 2 UmatPl [E; K; Sy] [A]) E K Sy []
    H1 (tension_described i p L E K Sy A F st H4)); try reflexivity.
  - eapply traced_mono; [|exact R3]. intros s Hs. right. apply Hs.
  - destruct (tension_session argsortZ argsortF solve i p L E K Sy A F st H1 H4 _ _ (traced_session _ _ _ _ _ _ _ R3))
      as (_ & _ & _ & _ & _ & _ & E4 & _). rewrite E4. lia.
Qed.
Print Assumptions C53_tensile.

(** ** The hypotheses are met *)
(** Bar of length 2 with E = K = 4, Sy = 1/4: two increments of 1/4 in tension, then
    three in compression in a second run; it flows in both directions. *)
Definition ct_settings (j n : Z) : settings R :=
  Settings (Same n) false 4 (1/100) (1/2) 8 (5/4) 8 8 4 8 (1/2) (1/4) (Same (0%Z, None)) 0 (Some j) true true 2 1.

Lemma ct_control s j n : s = ct_settings j n -> (Z.abs j = 1)%Z -> disp_control s j.
Proof. intros -> Hj. unfold disp_control. cbn. repeat split; auto; try lia; lra. Qed.

Lemma mat_run_inv mat h e outs : mat_run mat (h ++ [e]) outs -> exists outs' de s t y p, outs = outs' ++ [(s, y, p)] /\
  mat_run mat h outs' /\ umat_elplast_iso e de mat (Some [m_yield (last outs' mat_zero); m_epl (last outs' mat_zero)]) = Ok (s, t, Some [y; p]).
Proof.
  intros H. inversion H as [E|h' outs' e' de s t y p H1 H2 E1 E2]; [destruct h; discriminate|].
  apply app_inj_tail in E1 as [-> ->]. exists outs', de, s, t, y, p. auto.
Qed.

Lemma ct_flow e de y p s t y' p' : 0 < y -> umat_elplast_iso e de [4; 4; 1/4] (Some [y; p]) = Ok (s, t, Some [y'; p']) ->
  (Rabs (4 * (e - p)) <= y -> s = 4 * (e - p) /\ y' = y /\ p' = p) /\
  (y < 4 * (e - p) -> s = 2 * (e - p) + y / 2 /\ p' = p + (4 * (e - p) - y) / 8 /\ y' = y + (4 * (e - p) - y) / 2) /\
  (y < - (4 * (e - p)) -> s = 2 * (e - p) - y / 2 /\ p' = p - (- (4 * (e - p)) - y) / 8 /\ y' = y + (- (4 * (e - p)) - y) / 2).
Proof.
  intros Hy. rewrite umat_pl_eq. unfold yield_before. destruct (Req_EM_T y 0); [lra|]. cbv zeta.
  destruct (Rle_dec _ 0) as [Hle|Hgt]; intros HH; injection HH as <- <- <- <-.
  - split; [intros _; repeat split; lra|].
    split; intros Hx; exfalso; revert Hle; unfold Rabs; destruct (Rcase_abs _); lra.
  - split; [intros Hx; exfalso; lra|]. split; intros Hx; rewrite fsignR.
    + assert (Hp : Rabs (4 * (e - p)) = 4 * (e - p)) by (apply Rabs_pos_eq; lra). rewrite Hp in Hgt |- *.
      destruct (Rlt_dec 0 _); [|lra]. repeat split; field; lra.
    + assert (Hp : Rabs (4 * (e - p)) = - (4 * (e - p))) by (apply Rabs_left; lra). rewrite Hp in Hgt |- *.
      destruct (Rlt_dec 0 _); [lra|]. destruct (Rlt_dec _ 0); [|lra]. repeat split; field; lra.
Qed.

Lemma ct_first e de s t y p : umat_elplast_iso e de [4; 4; 1/4] (Some [0; 0]) = Ok (s, t, Some [y; p]) ->
  1/16 < e -> s = 2 * e + 1/8 /\ p = (4 * e - 1/4) / 8 /\ y = 1/4 + (4 * e - 1/4) / 2.
Proof.
  intros H He. assert (H' : umat_elplast_iso e de [4; 4; 1/4] (Some [1/4; 0]) = Ok (s, t, Some [y; p])).
  { rewrite <- H, !umat_pl_eq. unfold yield_before. destruct (Req_EM_T (1/4) 0); [lra|]. destruct (Req_EM_T 0 0); [reflexivity|lra]. }
  apply ct_flow in H' as (_ & H2 & _); [|lra]. destruct (H2 ltac:(lra)) as (-> & -> & ->). repeat split; lra.
Qed.

Lemma ct_law outs : mat_run [4; 4; 1/4] [1/8; 2/8; 1/8; 0; -1/8] outs ->
  map m_stress outs = [3/8; 5/8; 1/8; -3/8; -3/4] /\ m_epl (last outs mat_zero) = 1/16.
Proof.
  intros H.
  apply (mat_run_inv _ [1/8; 2/8; 1/8; 0]) in H as (o4 & d5 & s5 & t5 & y5 & p5 & -> & H & U5).
  apply (mat_run_inv _ [1/8; 2/8; 1/8]) in H as (o3 & d4 & s4 & t4 & y4 & p4 & -> & H & U4).
  apply (mat_run_inv _ [1/8; 2/8]) in H as (o2 & d3 & s3 & t3 & y3 & p3 & -> & H & U3).
  apply (mat_run_inv _ [1/8]) in H as (o1 & d2 & s2 & t2 & y2 & p2 & -> & H & U2).
  apply (mat_run_inv _ []) in H as (o0 & d1 & s1 & t1 & y1 & p1 & -> & H & U1).
  inversion H as [E1 E2|h ? ? ? ? ? ? ? ? ? E]; [subst o0|destruct h; discriminate].
  rewrite !last_snoc in *. cbn [last app map] in *. unfold m_stress, m_yield, m_epl, mat_zero in *. cbn [fst snd] in *.
  destruct (ct_first _ _ _ _ _ _ U1 ltac:(lra)) as (-> & -> & ->). clear U1.
  apply ct_flow in U2 as (_ & U2 & _); [|lra]. destruct (U2 ltac:(lra)) as (-> & -> & ->). clear U2.
  apply ct_flow in U3 as (U3 & _ & _); [|lra].
  destruct (U3 ltac:(unfold Rabs; destruct (Rcase_abs _); lra)) as (-> & -> & ->). clear U3.
  apply ct_flow in U4 as (U4 & _ & _); [|lra].
  destruct (U4 ltac:(unfold Rabs; destruct (Rcase_abs _); lra)) as (-> & -> & ->). clear U4.
  apply ct_flow in U5 as (_ & _ & U5); [|lra].
  destruct (U5 ltac:(lra)) as (-> & -> & ->). clear U5.
  split; [cbn [app map fst]; repeat (apply (f_equal2 cons); [lra|]); reflexivity|lra].
Qed.

Definition ct_model : model R := tension_model 0 (V3 1 2 3) 2 4 4 (1/4) 3 1 (ct_settings 1 2).
Example C53_tensile_meets : exists m1 m2 m3 new1 new2,
  build argsort_ins ct_model = Ok m1 /\
  traced sort2 cramer argsort_ins locked_run ct_model m2 new1 /\
  traced sort2 cramer argsort_ins locked_run ct_model m3 (new1 ++ new2) /\
  map (member_strain 0) (new1 ++ new2) = [1/8; 2/8; 1/8; 0; -1/8] /\
  map (fun a => m_stress (plastic_out 0 a)) (new1 ++ new2) = [3/8; 5/8; 1/8; -3/8; -3/4].
Proof.
  pose proof argsort_ins_ok as HZ. pose proof sort2_ok as HF. pose proof cramer_exact as HX.
  destruct (tension_builds argsort_ins 0 (V3 1 2 3) 2 4 4 (1/4) 3 1 (ct_settings 1 2) HZ ltac:(lia)) as (m1 & u1 & B1 & B2 & B3 & B4 & B5 & B6 & B7).
  assert (T1 : traced sort2 cramer argsort_ins locked_run ct_model m1 []) by (apply t_build; exact B1).
  assert (S1 : m_set m1 = ct_settings 1 2) by (rewrite B2; reflexivity).
  destruct (C53_tensile argsort_ins sort2 cramer 0 (V3 1 2 3) 2 4 4 (1/4) 3 1 (ct_settings 1 2) m1 [] 1 2 0 0
    HZ HF HX ltac:(lia) ltac:(lra) ltac:(lra) T1 (ct_control _ _ _ S1 eq_refl)) as (u1' & u0 & E1 & E2 & E3);
    try (rewrite S1; reflexivity); [lia|]. rewrite S1 in *. cbn [s_du ct_settings Z.sgn] in E3.
  assert (u1' = u1) by congruence. subst u1'. rewrite B6 in E2. injection E2 as <-.
  destruct E3 as (m2 & out2 & new1 & u2 & R1 & R2 & R3 & R4 & R5 & R6 & R7 & _).
  { intros q Hq. pose proof (pos_INR q). cbn. lra. }
  cbn [app] in R3.
  pose (m2' := with_settings (ct_settings (-1) 3) m2).
  assert (T2 : traced sort2 cramer argsort_ins locked_run ct_model m2' new1).
  { apply t_settings; [exact R3|].
    destruct (tension_session argsort_ins sort2 cramer 0 (V3 1 2 3) 2 4 4 (1/4) 3 1 (ct_settings 1 2) HZ ltac:(lia) _ _ (traced_session _ _ _ _ _ _ _ R3))
      as (_ & _ & _ & _ & _ & _ & E4 & _). rewrite E4. reflexivity. }
  assert (S2 : m_set m2' = ct_settings (-1) 3) by reflexivity.
  destruct (C53_tensile argsort_ins sort2 cramer 0 (V3 1 2 3) 2 4 4 (1/4) 3 1 (ct_settings 1 2) m2' new1 (-1) 3 0 0
    HZ HF HX ltac:(lia) ltac:(lra) ltac:(lra) T2 (ct_control _ _ _ S2 eq_refl)) as (u2' & u0 & G1 & G2 & G3);
    try (rewrite S2; reflexivity); [lia|]. rewrite S2 in *. cbn [s_du ct_settings Z.sgn] in G3.
  assert (u2' = u2) by (unfold m2' in G1; cbn in G1; congruence). subst u2'. rewrite R7 in G2. injection G2 as <-.
  destruct G3 as (m3 & out3 & new2 & u3 & Q1 & Q2 & Q3 & Q4 & Q5 & _ & _ & Q8).
  { change (Z.to_nat 3) with 3%nat. change (Z.to_nat 2) with 2%nat. intros q Hq.
    pose proof (le_INR q 3 (proj2 Hq)). cbn in *. lra. }
  exists m1, m2, m3, new1, new2. split; [exact B1|]. split; [exact R3|]. split; [exact Q3|].
  assert (Es : map (member_strain 0) (new1 ++ new2) = [1/8; 2/8; 1/8; 0; -1/8]).
  { change (Z.to_nat 3) with 3%nat in *. change (Z.to_nat 2) with 2%nat in *.
    destruct new1 as [|a1 [|a2 [|? ?]]]; try discriminate R4. destruct new2 as [|b1 [|b2 [|b3 [|? ?]]]]; try discriminate Q4.
    cbn [app map]. rewrite (proj1 (proj2 (R5 0%nat a1 eq_refl))), (proj1 (proj2 (R5 1%nat a2 eq_refl))).
    rewrite (proj1 (proj2 (Q5 0%nat b1 eq_refl))), (proj1 (proj2 (Q5 1%nat b2 eq_refl))), (proj1 (proj2 (Q5 2%nat b3 eq_refl))).
    cbn. repeat (apply (f_equal2 cons); [lra|]); reflexivity. }
  split; [exact Es|]. rewrite Es in Q8. rewrite <- (map_map (plastic_out 0) m_stress). apply (ct_law _ Q8).
Qed.

(** Shallow truss of one elastic and one plastic member, apex free in y only and
    1 above the supports.  Two steps of 3 and 5 increments push it down by 1/4 each:
    it snaps through, passing the flat position. *)
Definition snap_settings (j : Z) : settings R :=
  Settings (Per [3; 5]%Z) false 4 (1/100) (1/2) 8 (5/4) 8 8 4 8 (1/2) (1/4) (Per [(1%Z, None); (0%Z, None)]) 0 (Some j) true true 2 2.
Definition snap_ms : list (member R) := [Mb 1 1 3 UmatEl [4; 0; 0] [1]; Mb 2 2 3 UmatPl [4; 4; 1/4] [1]].
Definition snap_model : model R :=
  Model (Some (NodeH [1; 2; 3]%Z [V3 (-4) 0 0; V3 4 0 0; V3 0 1 0]))
    (Some (ElemH [1; 2]%Z [(1, 3); (2, 3)]%Z [1; 1]%Z [1; 2]%Z (Tab false 3 [[4; 0; 0]; [4; 4; 1/4]]) (Tab false 1 [[1]; [1]])))
    (Some (BoundH [1; 2; 3]%Z (UMat 3 [[0; 0; 0]; [0; 0; 0]; [0; 1; 0]]%Z)))
    (Some (ForceH [3]%Z 6 [[0; -1; 0; 0; -2; 0]])) (snap_settings (-1)) None.

Lemma snap_described : described snap_model [(1%Z, V3 (-4) 0 0); (2%Z, V3 4 0 0); (3%Z, V3 0 1 0)] snap_ms
  [(1, [0; 0; 0]); (2, [0; 0; 0]); (3, [0; 1; 0])]%Z [(3%Z, [0; -1; 0; 0; -2; 0])].
Proof.
  unfold described. split; [split; reflexivity|]. split.
  { split; [reflexivity|]. split; [reflexivity|]. repeat constructor. }
  split. { split; [reflexivity|]. split; [reflexivity|]. repeat constructor. }
  split. { eexists. split; [reflexivity|]. repeat split. }
  split; [cbn; lia|].
  split. { repeat constructor; cbn; intros H; repeat destruct H as [H|H]; try discriminate; auto. }
  split. { repeat constructor; cbn; intros H; repeat destruct H as [H|H]; try discriminate; auto. }
  split. { cbn. intros r [<-|[<-|[<-|[]]]]; reflexivity. }
  intros b [<-|[<-|[]]]; cbn; repeat split; auto; discriminate.
Qed.
Lemma snap_members : members_ok snap_ms.
Proof. intros b [<-|[<-|[]]]; cbn; split; try discriminate; lia. Qed.

Example C53_run_meets : exists m1 m2 out logs u2,
  build argsort_ins snap_model = Ok m1 /\ ran_as sort2 cramer m1 1 m2 out logs /\
  (forall k lg, nth_error logs k = Some lg ->
     driven 7 (powerRZ 10 (-8)) (INR (nth k [0; 3]%nat 0%nat) * - (1/4)) (- (1/4)) (nth k [3; 5]%nat 0%nat) lg) /\
  m_built m2 = Some u2 /\ a_Ured (u_an u2) = [-2].
Proof.
  destruct (build argsort_ins snap_model) as [m1| |] eqn:Eb; [|vm_compute in Eb; discriminate..].
  assert (HB : m_set m1 = snap_settings (-1) /\ m_forces m1 = Some (ForceH [1; 2; 3]%Z 6 [[0; 0; 0; 0; 0; 0]; [0; 0; 0; 0; 0; 0]; [0; -1; 0; 0; -2; 0]]) /\
    exists u1, m_built m1 = Some u1 /\ a_DOF1 (u_an u1) = [7%nat] /\ a_Ured (u_an u1) = [0]).
  { cbv in Eb. injection Eb as <-. cbn [m_set m_forces m_built]. split; [reflexivity|]. split; [reflexivity|].
    eexists. split; [reflexivity|]. split; reflexivity. }
  destruct HB as (Es & Ef & u1 & E1 & E2 & E3).
  destruct (C53_run argsort_ins sort2 cramer (fun st => (0 < s_nsteps st)%Z) snap_model _ _ _ _ m1 u1 7
    (ForceH [1; 2; 3]%Z 6 [[0; 0; 0; 0; 0; 0]; [0; 0; 0; 0; 0; 0]; [0; -1; 0; 0; -2; 0]]) (-1) (fun k => nth k [3; 5]%Z 0%Z)
    (fun k => nth k [1; 0]%Z 0%Z) 0 argsort_ins_ok sort2_ok cramer_exact snap_described snap_members) as (u0 & m2 & out & logs & u2 & R1 & R2 & R3 & R4 & _ & R5).
  - auto.
  - apply s_build. exact Eb.
  - exact E1.
  - exact E2.
  - exact Ef.
  - rewrite Es. unfold disp_control. cbn. repeat split; auto; try lia; lra.
  - rewrite Es. cbn. lia.
  - rewrite Es. cbn. intros r [<-|[<-|[<-|[]]]]; cbn; lia.
  - rewrite Es. cbn. intros k Hk. destruct k as [|[|k]]; [| |lia]; cbn; (split; [lra|]); repeat split; lia.
  - rewrite E3 in R1. injection R1 as <-. rewrite Es in *. exists m1, m2, out, logs, u2.
    split; [reflexivity|]. split; [exact R2|]. split; [|split; [exact R4|]].
    + intros k lg Hk. pose proof (R3 k lg Hk) as H.
      assert (Hl : length logs = 2%nat). { destruct R2 as (_ & Hl & _). rewrite Es in Hl. cbn in Hl. lia. }
      assert (k < length logs)%nat by (apply nth_error_Some; congruence).
      destruct k as [|[|k]]; [| |lia]; cbn in H |- *; unfold driven in *;
        destruct H as (H1 & H2 & H3); (split; [exact H1|]); (split; [exact H2|]); intros q x a Hq;
        destruct (H3 q x a Hq) as (H4 & H5 & H6).
      * replace (0 * - (1 / 4) + INR (S q) * - (1 / 4)) with (0 + 0 * (1 / 4 * -1) + INR (S q) * (1 / 4 * -1)) by lra. auto.
      * replace ((1 + 1 + 1) * - (1 / 4) + INR (S q) * - (1 / 4)) with (0 + (1 + 1 + 1) * (1 / 4 * -1) + INR (S q) * (1 / 4 * -1)) by lra. auto.
    + rewrite R5. change (incs_before _ _) with 8%nat. cbn [INR s_du snap_settings Z.sgn]. apply (f_equal (fun x => [x])). lra.
Qed.

(** An object of this truss to which [C53_newton] applies. *)
Definition snap_ctx : ctx R :=
  Ctx [1; 2; 3]%Z [V3 (-4) 0 0; V3 4 0 0; V3 0 1 0]
    (ElemH [1; 2]%Z [(1, 3); (2, 3)]%Z [1; 1]%Z [1; 2]%Z (Tab false 3 [[4; 0; 0]; [4; 4; 1/4]]) (Tab false 1 [[1]; [1]])) 3 1 2.
Definition snap_an : analysis R :=
  An 1 [vzero; vzero; vzero] [vzero; vzero; vzero] [vzero; vzero; vzero] (repeat 0 9) (zerosK 3) [0; 0] [0; 0] [0; 0]
    [0; 1; 2; 3; 4; 5; 6; 8]%nat [7%nat] [0] [] 0 (Some [[0; 0]; [0; 0]]) [] 0 [] [] [-1]
    (repeat (repeat 0 3) 3) [[0; 0; 0]; [0; 0; 0]; [0; -1; 0]].
Example C53_newton_meets : truss_ok snap_ctx snap_ms /\ c_ndof1 snap_ctx = 1%nat /\ one_free snap_ctx snap_ms 7 (-1) snap_an /\
  exact2 cramer /\
  exists an' o lam, newton cramer (f_ext (equilibrium snap_ctx) [0; 0] (-1) (-1) false) (dfdx (stiffness snap_ctx) (-1)) [0; 0] 8 (pow10neg 8) (pow10neg 8) snap_an
    = Ok (an', o) /\ no_success o = true /\ no_x o = [-1; lam].
Proof.
  assert (H1 : truss_ok snap_ctx snap_ms).
  { unfold truss_ok. split. { repeat constructor; cbn; intros H; repeat destruct H as [H|H]; try discriminate; auto. }
    split; [reflexivity|]. split; [repeat split|]. split.
    { repeat constructor; cbn; intros H; repeat destruct H as [H|H]; try discriminate; auto. }
    intros b [<-|[<-|[]]]; cbn; repeat split; auto; discriminate. }
  assert (H3 : one_free snap_ctx snap_ms 7 (-1) snap_an).
  { split. { unfold sizes_ok. cbn. do 4 (split; [reflexivity|]). split; [intros r [<-|[<-|[<-|[]]]]; reflexivity|].
      do 3 (split; [reflexivity|]). split; [repeat constructor; cbn; tauto|]. split; [intros k [<-|[]]; lia|].
      split; [reflexivity|]. intros _. eexists. split; reflexivity. }
    split; [split; reflexivity|]. split.
    { intros [|[|k]] b Hb; cbn in Hb; [injection Hb as <-|injection Hb as <-|destruct k; discriminate]; cbn; split; try discriminate.
      split; [lia|]. do 3 eexists. reflexivity. }
    split; [reflexivity|]. split; reflexivity. }
  split; [exact H1|]. split; [reflexivity|]. split; [exact H3|]. split; [exact cramer_exact|].
  destruct (C53_newton snap_ctx snap_ms 7 (-1) cramer snap_an [0; 0] (-1) (-1) (pow10neg 8) (pow10neg 8) 8 0 0 H1 eq_refl H3) as (an' & o & lam & E1 & E2 & _ & E3 & _);
    [lra|reflexivity|exact cramer_exact|reflexivity|apply pow10neg_pos|apply pow10neg_pos|lia|].
  exists an', o, lam. auto.
Qed.
