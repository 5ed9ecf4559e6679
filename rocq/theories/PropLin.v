(** * C70: the linear limit *)
From Coq Require Import List ZArith Bool Arith Lia Reals Lra Permutation.
Import ListNotations.
From Verif Require Import Num NumR NumFix Vec Handlers Material Analysis Truss Equil Solver Run ListFacts SpecMech SpecMechR SpecBuild SpecState SpecRun SpecForm SpecNewton SpecSmall SpecLin
  EditFacts SmallFacts SmallRun PropNewton PropSmall LinFacts LinRun.
Local Open Scope R_scope.

(** A truss without mechanism, elastic at first, has exactly one solution of linear truss
    theory. *)
Theorem C70_linear_solution : forall argsortZ m ns ms bs fs m1 u1 fh,
  argsort_ok argsortZ -> described m ns ms bs fs -> (forall b, In b ms -> elastic_at_first b /\ 0 < EA b) ->
  (forall b p q, In b ms -> In (mb_a b, p) ns -> In (mb_b b, q) ns -> p <> q) -> rigid ns ms bs ->
  build argsortZ m = Ok m1 -> m_built m1 = Some u1 -> m_forces m1 = Some fh -> (forall r, In r (e_rows fh) -> (3 <= length r)%nat) ->
  (1 <= u_ndof1 u1)%nat ->
  (exists v, linear_solution ns ms bs fs v) /\
  (forall v v', linear_solution ns ms bs fs v -> linear_solution ns ms bs fs v' -> forall l, In l (map fst ns) -> v l = v' l).
Proof.
  intros argsortZ m ns ms bs fs m1 u1 fh H1 H4 H5 H6 Hr H7 H8 H11 H12 H14.
  destruct (build_handlers _ _ _ H7) as (nh & eh & H9 & H10). set (j := Z.of_nat (S (u_ndof1 u1))). assert (Hj : Z.abs j = Z.of_nat (S (u_ndof1 u1))) by (unfold j; lia).
  destruct (starts_at_rest argsortZ m ns ms bs fs m1 u1 nh eh fh j H1 H4 (fun b Hb => proj1 (H5 b Hb)) H6 H7 H8 H9 H10 H11 H12 H14 ltac:(lia)) as (an & a2 & Km & HR).
  pose proof HR as (_ & _ & _ & _ & _ & _ & _ & _ & _ & _ & HK & _ & Hs & _).
  pose proof (load_regular argsortZ m ns ms bs fs m1 u1 nh eh fh j H1 H4 H5 H6 Hr H7 H8 H9 H10 H11 Hj an a2 Km Hs HK) as Hns.
  split.
  - exact (linear_exists argsortZ gauss m ns ms bs fs m1 u1 nh eh fh j H1 H4 H5 H7 H8 H9 H11 H12 H14 ltac:(lia) (C60_solver _) an a2 Km HR Hns Hj).
  - intros v v'. exact (linear_unique argsortZ m ns ms bs fs m1 u1 nh eh fh j H1 H4 H5 H7 H8 H9 H11 H12 H14 ltac:(lia) an a2 Km HR Hns v v' Hj).
Qed.
Print Assumptions C70_linear_solution.

(** Loaded in small steps of a component that moves in the linear solution, such a
    truss deforms as linear truss theory says.  For every [eps] there is [eta > 0] such
    that, as long as the value aimed at is at most [eta], every recorded displacement
    and every recorded member force is the recorded load factor times that of the
    linear solution, up to [eps] times the value aimed at. *)
Theorem C70_any_control : forall argsortZ argsortF solve m ns ms bs fs m1 u1 nh fh j v, let n := S (u_ndof1 u1) in
  argsort_ok argsortZ -> (forall l, Permutation (argsortF l) (seq 0 (length l))) -> solves n solve ->
  described m ns ms bs fs -> (forall b, In b ms -> elastic_at_first b /\ 0 < EA b) ->
  (forall b p q, In b ms -> In (mb_a b, p) ns -> In (mb_b b, q) ns -> p <> q) -> rigid ns ms bs ->
  build argsortZ m = Ok m1 -> m_built m1 = Some u1 -> m_nodes m1 = Some nh -> m_forces m1 = Some fh ->
  (forall r, In r (e_rows fh) -> (3 <= length r)%nat) -> (1 <= u_ndof1 u1)%nat -> (1 <= Z.abs j)%Z ->
  linear_solution ns ms bs fs v -> moves (n_labels nh) (a_DOF1 (u_an u1)) v j n ->
  forall tau eps, 0 < tau <= 1 -> 0 < eps -> exists eta, 0 < eta /\ forall ftol xtol, exists N, forall st k fuel, let d := step_size st j n in
    small_control st j n k tau -> s_ftol st = ftol -> s_xtol st = xtol -> (Z.of_nat N <= s_nfev st)%Z -> s_nstatev st = s_nstatev (m_set m1) ->
    0 < d <= eta -> INR k * d <= eta ->
    exists m2 out lg, ran_as argsortF solve (with_settings st m1) (S fuel) m2 out [lg] /\ lg_out lg = repeat MIncr k /\ length (lg_recs lg) = k /\
      forall q x a, nth_error (lg_recs lg) q = Some (x, a) ->
        x = a_Ured a ++ [a_lpf a] /\ length x = n /\
        Rabs (nth (Z.to_nat (Z.abs j - 1)) x 0 - INR (S q) * (IZR (Z.sgn j) * d)) <= INR (S q) * (tau * d) /\
        near_linear ns ms (n_labels nh) v (eps * (INR (S q) * d)) a.
Proof.
  intros argsortZ argsortF solve m ns ms bs fs m1 u1 nh fh j v n H1 H2 H3 H4 H5 H6 Hr H7 H8 H9 H11 H12 H14 H15 Hv Hmv tau eps Ht He.
  destruct (build_handlers _ _ _ H7) as (nh' & eh & H9' & H10). set (jn := Z.of_nat n). assert (Hjn : Z.abs jn = Z.of_nat n) by (unfold jn; lia).
  destruct (starts_at_rest argsortZ m ns ms bs fs m1 u1 nh eh fh jn H1 H4 (fun b Hb => proj1 (H5 b Hb)) H6 H7 H8 H9 H10 H11 H12 H14 ltac:(unfold n in *; lia)) as (a0 & b2 & Kn & HRn).
  pose proof HRn as (_ & Hsz & _ & _ & _ & _ & _ & _ & _ & _ & HKn & _ & Hsn & _).
  pose proof (load_regular argsortZ m ns ms bs fs m1 u1 nh eh fh jn H1 H4 H5 H6 Hr H7 H8 H9 H10 H11 Hjn a0 b2 Kn Hsn HKn) as Hnsn.
  pose proof (DOF_same ns ms m1 u1 nh eh fh jn a0 b2 Kn HRn) as HD0.
  assert (Hn1 : u_ndof1 u1 = length (a_DOF1 (u_an u1))) by (destruct Hsz as (_ & _ & _ & _ & _ & _ & _ & _ & _ & _ & G & _); rewrite <- HD0; exact G).
  assert (Hj : (1 <= Z.abs j <= Z.of_nat n)%Z).
  { destruct Hmv as [E|(i & l & d & E & _)]; [lia|]. assert (G : (Z.to_nat (Z.abs j - 1) < length (a_DOF1 (u_an u1)))%nat) by (apply nth_error_Some; congruence). unfold n. lia. }
  destruct (starts_at_rest argsortZ m ns ms bs fs m1 u1 nh eh fh j H1 H4 (fun b Hb => proj1 (H5 b Hb)) H6 H7 H8 H9 H10 H11 H12 H14 Hj) as (an & a2 & Km & HR).
  pose proof (DOF_same ns ms m1 u1 nh eh fh j an a2 Km HR) as HD. pose proof (free_length ns ms m1 u1 nh eh fh j an a2 Km HR v) as Lf. cbn [ctx_of c_ndof1] in Lf.
  assert (Hns : nonsingular n Km).
  { apply (moving_regular argsortZ m ns ms bs fs m1 u1 nh eh fh j jn H1 H4 H5 H7 H8 H9 H11 H12 H14 Hj Hjn an a2 a0 b2 Km Kn HR HRn Hnsn v Hv).
    destruct Hmv as [E|(i & l & d & E1 & E2 & E3 & E4)].
    - rewrite E, app_nth2 by (rewrite Lf; unfold n; lia). rewrite Lf. replace (Z.to_nat (Z.of_nat n - 1) - u_ndof1 u1)%nat with 0%nat by (unfold n; lia). cbn. lra.
    - rewrite app_nth1 by (rewrite Lf, Hn1; apply nth_error_Some; congruence). unfold free_part. rewrite HD.
      rewrite (nth_error_nth _ _ _ (map_nth_error (fun p => vget (v (JacFacts.lab (ctx_of m1 u1 nh eh) p)) (p mod 3)) _ _ E1)).
      destruct (FormFacts.div3 i d E2) as [D1 D2]. unfold JacFacts.lab. rewrite D1, D2. cbn [ctx_of c_labels]. rewrite (nth_error_nth _ _ _ E3). exact E4. }
  exact (linear_run argsortZ argsortF solve m ns ms bs fs m1 u1 nh eh fh j H1 H2 H4 H5 H7 H8 H9 H10 H11 H12 H14 Hj H3 an a2 Km HR Hns v tau eps Hv Ht He).
Qed.
Print Assumptions C70_any_control.

(** In particular under load control. *)
Theorem C70_limit : forall argsortZ argsortF solve m ns ms bs fs m1 u1 nh fh j v, let n := S (u_ndof1 u1) in
  argsort_ok argsortZ -> (forall l, Permutation (argsortF l) (seq 0 (length l))) -> solves n solve ->
  described m ns ms bs fs -> (forall b, In b ms -> elastic_at_first b /\ 0 < EA b) ->
  (forall b p q, In b ms -> In (mb_a b, p) ns -> In (mb_b b, q) ns -> p <> q) -> rigid ns ms bs ->
  build argsortZ m = Ok m1 -> m_built m1 = Some u1 -> m_nodes m1 = Some nh -> m_forces m1 = Some fh ->
  (forall r, In r (e_rows fh) -> (3 <= length r)%nat) -> (1 <= u_ndof1 u1)%nat -> Z.abs j = Z.of_nat n ->
  linear_solution ns ms bs fs v ->
  forall tau eps, 0 < tau <= 1 -> 0 < eps -> exists eta, 0 < eta /\ forall ftol xtol, exists N, forall st k fuel, let d := s_dlpf st in
    small_control st j n k tau -> s_ftol st = ftol -> s_xtol st = xtol -> (Z.of_nat N <= s_nfev st)%Z -> s_nstatev st = s_nstatev (m_set m1) ->
    0 < d <= eta -> INR k * d <= eta ->
    exists m2 out lg, ran_as argsortF solve (with_settings st m1) (S fuel) m2 out [lg] /\ lg_out lg = repeat MIncr k /\ length (lg_recs lg) = k /\
      forall q x a, nth_error (lg_recs lg) q = Some (x, a) ->
        Rabs (a_lpf a - INR (S q) * (IZR (Z.sgn j) * d)) <= INR (S q) * (tau * d) /\
        near_linear ns ms (n_labels nh) v (eps * (INR (S q) * d)) a.
Proof.
  intros argsortZ argsortF solve m ns ms bs fs m1 u1 nh fh j v n H1 H2 H3 H4 H5 H6 Hr H7 H8 H9 H11 H12 H14 H15 Hv tau eps Ht He.
  destruct (C70_any_control argsortZ argsortF solve m ns ms bs fs m1 u1 nh fh j v H1 H2 H3 H4 H5 H6 Hr H7 H8 H9 H11 H12 H14 ltac:(unfold n in *; lia) Hv (or_introl H15) tau eps Ht He)
    as (eta & Heta & H). exists eta. split; [exact Heta|]. intros fz xz. destruct (H fz xz) as [N HN]. exists N. clear H. intros st k fuel d.
  specialize (HN st k fuel). unfold step_size in HN. fold n in HN. rewrite H15, Z.eqb_refl in HN. fold d in HN. cbv zeta in HN.
  intros A1 A2 A3 A4 A5 A6 A7. destruct (HN A1 A2 A3 A4 A5 A6 A7) as (m2 & out & lg & E1 & E2 & E3 & E4). clear HN.
  exists m2, out, lg. split; [exact E1|]. split; [exact E2|]. split; [exact E3|]. intros q x a Hq. destruct (E4 q x a Hq) as (X1 & X2 & X3 & X4). split; [|exact X4].
  rewrite X1 in X2. rewrite app_length in X2. cbn [length] in X2. rewrite X1, app_nth2 in X3 by (unfold n in *; lia).
  replace (Z.to_nat (Z.of_nat n - 1) - length (a_Ured a))%nat with 0%nat in X3 by (unfold n in *; lia). exact X3.
Qed.
Print Assumptions C70_limit.

(** ** The corner, loaded by a unit force along its first member and away from the second *)
Definition corner_linear (l : Z) : v3 R := if Z.eqb l 2 then V3 (1 / 70) (-1 / 50) 0 else vzero.

Lemma len_3 : sqrt (3 * 3 + 0 * 0 + 0 * 0) = 3.
Proof. replace (3 * 3 + 0 * 0 + 0 * 0) with (3 * 3) by ring. apply sqrt_square. lra. Qed.
Lemma len_4 : sqrt (0 * 0 + 4 * 4 + 0 * 0) = 4.
Proof. replace (0 * 0 + 4 * 4 + 0 * 0) with (4 * 4) by ring. apply sqrt_square. lra. Qed.

(** Both members carry the unit force. *)
Lemma corner_forces : map (linear_force corner_nodes corner_linear) corner_members = [1; 1].
Proof.
  unfold corner_members, linear_force, elongation, bar, position, len, EA. cbn. replace (3 - 0) with 3 by ring. replace (3 - 3) with 0 by ring. replace (4 - 0) with 4 by ring. replace (0 - 0) with 0 by ring.
  rewrite len_3, len_4. f_equal; [field|f_equal; field].
Qed.
Lemma corner_solution : linear_solution corner_nodes corner_members corner_supports corner_loads corner_linear.
Proof.
  pose proof corner_forces as F. cbn [map corner_members] in F. injection F as F1 F2. split.
  - intros l d [<-|[<-|[<-|[]]]] Hd Hs; destruct d as [|[|[|d]]]; try lia; cbn in *; try reflexivity; congruence.
  - intros l d Hl Hd Hs. unfold corner_members, linear_pull. cbv zeta. cbn [map]. rewrite F1, F2. clear F1 F2.
    destruct Hl as [<-|[<-|[<-|[]]]]; destruct d as [|[|[|d]]]; try lia; cbn in Hs; try discriminate Hs;
      unfold bar, position, len; cbn; replace (3 - 0) with 3 by ring; replace (3 - 3) with 0 by ring; replace (4 - 0) with 4 by ring; replace (0 - 0) with 0 by ring; rewrite len_3, len_4; field.
Qed.

(** It can be loaded in five steps; the forces recorded in the fifth are the load
    factor, up to one percent of the load factor aimed at. *)
Example C70_meets : exists d N m2 out lg x a n1 n2, 0 < d /\
  ran_as (fun l => seq 0 (length l)) gauss (with_settings (corner_settings 5 d N) corner_built) 1 m2 out [lg] /\
  lg_out lg = repeat MIncr 5 /\ nth_error (lg_recs lg) 4 = Some (x, a) /\ Rabs (a_lpf a - 5 * d) <= 5 * (1 / 10 * d) /\
  nth_error (a_force a) 0 = Some n1 /\ nth_error (a_force a) 1 = Some n2 /\
  Rabs (n1 - a_lpf a) <= 1 / 100 * (5 * d) /\ Rabs (n2 - a_lpf a) <= 1 / 100 * (5 * d).
Proof.
  destruct (m_built corner_built) as [u|] eqn:Eu; [|lazy in Eu; discriminate]. destruct (m_forces corner_built) as [fh|] eqn:Ef; [|lazy in Ef; discriminate].
  destruct (m_nodes corner_built) as [nh|] eqn:En; [|lazy in En; discriminate].
  assert (Hu : u_ndof1 u = 2%nat) by (lazy in Eu; injection Eu as <-; reflexivity).
  assert (Hf : forall r, In r (e_rows fh) -> (3 <= length r)%nat).
  { cut (Forall (fun r => (3 <= length r)%nat) (e_rows fh)); [intros H r Hr; rewrite Forall_forall in H; apply H, Hr|].
    lazy in Ef. injection Ef as <-. cbn [e_rows]. repeat constructor. }
  destruct (C70_limit argsort_ins (fun l => seq 0 (length l)) gauss corner _ _ _ _ corner_built u nh fh 3 corner_linear
    argsort_ins_ok ltac:(intros l; apply Permutation_refl) (C60_solver _) corner_described corner_elastic corner_axes corner_rigid corner_builds Eu En Ef Hf
    ltac:(lia) ltac:(rewrite Hu; reflexivity) corner_solution (1 / 10) (1 / 100) ltac:(lra) ltac:(lra)) as (eta & He & H).
  destruct (H 8%Z 8%Z) as [N HN]. set (d := eta / 5).
  destruct (HN (corner_settings 5 d (Z.of_nat N)) 5%nat 0%nat) as (m2 & out & lg & E1 & E2 & E3 & E4).
  - unfold small_control. rewrite Hu. cbn. repeat split; try lra; try lia. exists 0%Z. split; [reflexivity|lia].
  - reflexivity.
  - reflexivity.
  - cbn. lia.
  - lazy. reflexivity.
  - cbn. unfold d. lra.
  - cbn [corner_settings s_dlpf]. replace (INR 5) with 5 by (cbn; lra). unfold d. lra.
  - destruct (nth_error (lg_recs lg) 4) as [[x a]|] eqn:E; [|apply nth_error_None in E; lia].
    destruct (E4 _ _ _ E) as (X1 & _ & X2). cbn [s_dlpf corner_settings] in X1, X2. replace (INR 5) with 5 in X1, X2 by (cbn; lra).
    pose proof corner_forces as F. cbn [map corner_members] in F. injection F as F1 F2.
    destruct (X2 0%nat _ eq_refl) as (n1 & G1 & G1'). destruct (X2 1%nat _ eq_refl) as (n2 & G2 & G2'). rewrite F1, Rmult_1_r in G1'. rewrite F2, Rmult_1_r in G2'.
    exists d, (Z.of_nat N), m2, out, lg, x, a, n1, n2. split; [unfold d; lra|]. split; [exact E1|]. split; [exact E2|]. split; [exact E|].
    split; [replace (5 * d) with (5 * (IZR (Z.sgn 3) * d)) by (cbn; ring); exact X1|]. auto.
Qed.

(** Or pushed down at its free node. *)
Definition corner_pushed (k : Z) (d : R) (nfev : Z) : settings R :=
  Settings (Same k) false 4 (1/100) (1/2) 8 2 8 8 4 nfev d d (Same (0%Z, None)) 0 (Some (-2)%Z) true true 2 1.

Example C70_any_control_meets : exists d N m2 out lg u a n1 n2, 0 < d /\
  ran_as (fun l => seq 0 (length l)) gauss (with_settings (corner_pushed 5 d N) corner_built) 1 m2 out [lg] /\
  lg_out lg = repeat MIncr 5 /\ nth_error (lg_recs lg) 4 = Some (a_Ured a ++ [a_lpf a], a) /\
  nth_error (a_Ured a) 1 = Some u /\ Rabs (u - 5 * - d) <= 5 * (1 / 10 * d) /\
  nth_error (a_force a) 0 = Some n1 /\ nth_error (a_force a) 1 = Some n2 /\
  Rabs (n1 - a_lpf a) <= 1 / 100 * (5 * d) /\ Rabs (n2 - a_lpf a) <= 1 / 100 * (5 * d).
Proof.
  destruct (m_built corner_built) as [u|] eqn:Eu; [|lazy in Eu; discriminate]. destruct (m_forces corner_built) as [fh|] eqn:Ef; [|lazy in Ef; discriminate].
  destruct (m_nodes corner_built) as [nh|] eqn:En; [|lazy in En; discriminate].
  assert (Hu : u_ndof1 u = 2%nat /\ a_DOF1 (u_an u) = [3; 4]%nat) by (lazy in Eu; injection Eu as <-; split; reflexivity). destruct Hu as [Hu HD].
  assert (Hl : n_labels nh = [1; 2; 3]%Z) by (lazy in En; injection En as <-; reflexivity).
  assert (Hf : forall r, In r (e_rows fh) -> (3 <= length r)%nat).
  { cut (Forall (fun r => (3 <= length r)%nat) (e_rows fh)); [intros H r Hr; rewrite Forall_forall in H; apply H, Hr|].
    lazy in Ef. injection Ef as <-. cbn [e_rows]. repeat constructor. }
  assert (Hm : moves (n_labels nh) (a_DOF1 (u_an u)) corner_linear (-2) (S (u_ndof1 u))).
  { right. exists 1%nat, 2%Z, 1%nat. rewrite HD, Hl. split; [reflexivity|]. split; [lia|]. split; [reflexivity|]. cbn. lra. }
  destruct (C70_any_control argsort_ins (fun l => seq 0 (length l)) gauss corner _ _ _ _ corner_built u nh fh (-2) corner_linear
    argsort_ins_ok ltac:(intros l; apply Permutation_refl) (C60_solver _) corner_described corner_elastic corner_axes corner_rigid corner_builds Eu En Ef Hf
    ltac:(lia) ltac:(lia) corner_solution Hm (1 / 10) (1 / 100) ltac:(lra) ltac:(lra)) as (eta & He & H).
  destruct (H 8%Z 8%Z) as [N HN]. set (d := eta / 5). rewrite Hu in HN.
  destruct (HN (corner_pushed 5 d (Z.of_nat N)) 5%nat 0%nat) as (m2 & out & lg & E1 & E2 & E3 & E4).
  - unfold small_control. cbn. repeat split; try lra; try lia. exists 0%Z. split; [reflexivity|lia].
  - reflexivity.
  - reflexivity.
  - cbn. lia.
  - lazy. reflexivity.
  - cbn. unfold d. lra.
  - cbn [corner_pushed s_du step_size Z.abs Z.of_nat Pos.of_succ_nat Pos.succ Z.eqb Pos.eqb]. replace (INR 5) with 5 by (cbn; lra). unfold d. lra.
  - destruct (nth_error (lg_recs lg) 4) as [[x a]|] eqn:E; [|apply nth_error_None in E; lia].
    destruct (E4 _ _ _ E) as (X0 & L & X1 & _ & X2). change (step_size (corner_pushed 5 d (Z.of_nat N)) (-2) 3) with d in X1, X2. replace (INR 5) with 5 in X1, X2 by (cbn; lra).
    pose proof corner_forces as F. cbn [map corner_members] in F. injection F as F1 F2.
    destruct (X2 0%nat _ eq_refl) as (n1 & G1 & G1'). destruct (X2 1%nat _ eq_refl) as (n2 & G2 & G2'). rewrite F1, Rmult_1_r in G1'. rewrite F2, Rmult_1_r in G2'.
    rewrite X0, app_length in L. cbn [length] in L. change (Z.to_nat (Z.abs (-2) - 1)) with 1%nat in X1. rewrite X0, app_nth1 in X1 by lia.
    exists d, (Z.of_nat N), m2, out, lg, (nth 1 (a_Ured a) 0), a, n1, n2. split; [unfold d; lra|]. split; [exact E1|]. split; [exact E2|]. split; [rewrite <- X0; exact E|].
    split; [apply EquilFacts.nth_nth_error; lia|]. split; [replace (5 * - d) with (5 * (IZR (Z.sgn (-2)) * d)) by (cbn; ring); exact X1|]. auto.
Qed.
