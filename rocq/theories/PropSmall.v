(** * C69: small steps succeed *)
From Coq Require Import List ZArith Bool Arith Lia Reals Lra Permutation.
Import ListNotations.
From Verif Require Import Num NumR NumFix Vec Handlers Material Analysis Truss Equil Solver Run ListFacts SpecMech SpecMechR SpecBuild SpecState SpecRun SpecForm SpecNewton SpecSmall
  EditFacts SmallFacts SmallRun PropNewton.
Local Open Scope R_scope.

(** A new truss with members of nonzero length, elastic at first, is run in one step
    of [k] increments.  If the extended matrix of the first iteration is nonsingular, then
    for every [tau] there are [eta > 0] and [C] such that every run with steps
    [d <= eta] makes all its increments without any message of failure, as long as
    [k * C * d <= eta] and Newton's method is allowed [N] iterations, where [N]
    depends on the tolerances only. *)
Theorem C69_run : forall argsortZ argsortF solve m ns ms bs fs m1 u1 nh eh fh j, let n := S (u_ndof1 u1) in
  argsort_ok argsortZ -> (forall l, Permutation (argsortF l) (seq 0 (length l))) -> solves n solve ->
  described m ns ms bs fs -> (forall b, In b ms -> elastic_at_first b) ->
  (forall b p q, In b ms -> In (mb_a b, p) ns -> In (mb_b b, q) ns -> p <> q) ->
  build argsortZ m = Ok m1 -> m_built m1 = Some u1 -> m_nodes m1 = Some nh -> m_elems m1 = Some eh -> m_forces m1 = Some fh ->
  (forall r, In r (e_rows fh) -> (3 <= length r)%nat) -> (1 <= u_ndof1 u1)%nat -> (1 <= Z.abs j <= Z.of_nat n)%Z ->
  (forall an a2 K, step_starts (e_rows fh) [] 0 (set_lpf 0 (set_Vred (a_Ured (u_an u1) ++ [0]) (u_an u1))) an ->
     dfdx (stiffness (ctx_of m1 u1 nh eh)) j (repeat 0 n) an = Ok (a2, K) -> nonsingular n K) ->
  forall tau, 0 < tau <= 1 -> exists eta C, 0 < eta /\ 0 < C /\ forall ftol xtol, exists N, forall st k fuel, let d := step_size st j n in
    small_control st j n k tau -> s_ftol st = ftol -> s_xtol st = xtol -> (Z.of_nat N <= s_nfev st)%Z -> s_nstatev st = s_nstatev (m_set m1) ->
    0 < d <= eta -> INR k * (C * d) <= eta ->
    exists m2 out lg, ran_as argsortF solve (with_settings st m1) (S fuel) m2 out [lg] /\
      lg_out lg = repeat MIncr k /\ length (lg_recs lg) = k /\ follows j n d C tau (lg_recs lg).
Proof.
  intros argsortZ argsortF solve m ns ms bs fs m1 u1 nh eh fh j n H1 H2 H3 H4 H5 H6 H7 H8 H9 H10 H11 H12 H14 H15 H16 tau Ht.
  exact (small_run argsortZ argsortF solve m ns ms bs fs m1 u1 nh eh fh j H1 H2 H4 H5 H6 H7 H8 H9 H10 H11 H12 H14 H15 H3 H16 tau Ht).
Qed.
Print Assumptions C69_run.

(** Under load control the matrix need not be looked at: it is nonsingular if all
    members have positive stiffness and the truss is not a mechanism.  So every such
    truss, under any loads, can be loaded in small steps, and the code follows its
    equilibrium path. *)
Theorem C69_load_control : forall argsortZ argsortF solve m ns ms bs fs m1 u1 fh j, let n := S (u_ndof1 u1) in
  argsort_ok argsortZ -> (forall l, Permutation (argsortF l) (seq 0 (length l))) -> solves n solve ->
  described m ns ms bs fs -> (forall b, In b ms -> elastic_at_first b /\ 0 < EA b) ->
  (forall b p q, In b ms -> In (mb_a b, p) ns -> In (mb_b b, q) ns -> p <> q) -> rigid ns ms bs ->
  build argsortZ m = Ok m1 -> m_built m1 = Some u1 -> m_forces m1 = Some fh ->
  (forall r, In r (e_rows fh) -> (3 <= length r)%nat) -> (1 <= u_ndof1 u1)%nat -> Z.abs j = Z.of_nat n ->
  forall tau, 0 < tau <= 1 -> exists eta C, 0 < eta /\ 0 < C /\ forall ftol xtol, exists N, forall st k fuel, let d := s_dlpf st in
    small_control st j n k tau -> s_ftol st = ftol -> s_xtol st = xtol -> (Z.of_nat N <= s_nfev st)%Z -> s_nstatev st = s_nstatev (m_set m1) ->
    0 < d <= eta -> INR k * (C * d) <= eta ->
    exists m2 out lg, ran_as argsortF solve (with_settings st m1) (S fuel) m2 out [lg] /\
      lg_out lg = repeat MIncr k /\ length (lg_recs lg) = k /\ follows j n d C tau (lg_recs lg).
Proof.
  intros argsortZ argsortF solve m ns ms bs fs m1 u1 fh j n H1 H2 H3 H4 H5 H6 Hr H7 H8 H11 H12 H14 H15 tau Ht.
  destruct (build_handlers _ _ _ H7) as (nh & eh & H9 & H10).
  destruct (C69_run argsortZ argsortF solve m ns ms bs fs m1 u1 nh eh fh j H1 H2 H3 H4 ltac:(intros b Hb; apply H5, Hb) H6 H7 H8 H9 H10 H11 H12 H14 ltac:(unfold n in H15; lia)
    (load_regular argsortZ m ns ms bs fs m1 u1 nh eh fh j H1 H4 H5 H6 Hr H7 H8 H9 H10 H11 H15) tau Ht) as (eta & C & He & HC & H).
  exists eta, C. split; [exact He|]. split; [exact HC|]. intros fz xz. destruct (H fz xz) as [N HN]. exists N.
  intros st k fuel d. specialize (HN st k fuel). unfold step_size in HN. rewrite H15, Z.eqb_refl in HN. exact HN.
Qed.
Print Assumptions C69_load_control.

(** ** Two members at right angles, held at their far ends: the first elastic, the
    second plastic *)
Definition corner_settings (k : Z) (d : R) (nfev : Z) : settings R :=
  Settings (Same k) false 4 (1/100) (1/2) 8 2 8 8 4 nfev d d (Same (0%Z, None)) 0 (Some 3%Z) true true 2 1.
Definition corner : model R :=
  Model (Some (NodeH [1; 2; 3]%Z [V3 0 0 0; V3 3 0 0; V3 3 4 0]))
    (Some (ElemH [1; 2]%Z [(1, 2); (2, 3)]%Z [1; 1]%Z [1; 2]%Z (Tab false 3 [[210; 0; 0]; [100; 10; 20]]) (Tab false 1 [[1]; [2]])))
    (Some (BoundH [1; 2; 3]%Z (UMat 3 [[0; 0; 0]; [1; 1; 0]; [0; 0; 0]]%Z)))
    (Some (ForceH [2]%Z 3 [[1; -1; 0]])) (corner_settings 1 1 8) None.
Definition corner_built : model R := match build argsort_ins corner with Ok m => m | _ => corner end.
Lemma corner_builds : build argsort_ins corner = Ok corner_built.
Proof. lazy. reflexivity. Qed.

Definition corner_nodes : list (Z * v3 R) := [(1%Z, V3 0 0 0); (2%Z, V3 3 0 0); (3%Z, V3 3 4 0)].
Definition corner_members : list (member R) := [Mb 1 1 2 UmatEl [210; 0; 0] [1]; Mb 2 2 3 UmatPl [100; 10; 20] [2]].
Definition corner_supports : list (Z * list Z) := [(1%Z, [0; 0; 0]%Z); (2%Z, [1; 1; 0]%Z); (3%Z, [0; 0; 0]%Z)].
Definition corner_loads : list (Z * list R) := [(2%Z, [1; -1; 0])].
Lemma corner_described : described corner corner_nodes corner_members corner_supports corner_loads.
Proof.
  unfold described. split; [split; reflexivity|]. split; [split; [reflexivity|]; split; [reflexivity|]; repeat constructor|].
    split; [split; [reflexivity|]; split; [reflexivity|]; repeat constructor|]. split. { eexists. split; [reflexivity|]. repeat split. }
    split; [cbn; lia|]. split. { repeat constructor; cbn; intros H; repeat destruct H as [H|H]; try discriminate; auto. }
    split. { repeat constructor; cbn; intros H; repeat destruct H as [H|H]; try discriminate; auto. }
    split. { cbn. intros r [<-|[<-|[<-|[]]]]; reflexivity. }
    intros b [<-|[<-|[]]]; cbn; repeat split; auto; discriminate.
Qed.
Lemma corner_elastic b : In b corner_members -> elastic_at_first b /\ 0 < EA b.
Proof. revert b. intros b [<-|[<-|[]]]; (split; [split; [discriminate|cbn]|unfold EA; cbn; lra]); [discriminate|]. exists 100, 10, 20, []. split; [reflexivity|]. lra. Qed.
Lemma corner_axes b p q : In b corner_members -> In (mb_a b, p) corner_nodes -> In (mb_b b, q) corner_nodes -> p <> q.
Proof.
  revert b p q. intros b p q [<-|[<-|[]]]; cbn; intros H1 H2 ->; repeat destruct H1 as [H1|H1]; try discriminate H1; try tauto; repeat destruct H2 as [H2|H2]; try discriminate H2; try tauto;
      injection H1 as H1; injection H2 as H2; rewrite <- H1 in H2; injection H2; intros; lra.
Qed.
Lemma corner_rigid : rigid corner_nodes corner_members corner_supports.
Proof.
  intros v Hs Hm.
  assert (F : forall l, In l [1; 3]%Z -> v l = vzero).
  { intros l Hl. assert (G : forall d, (d < 3)%nat -> vget (v l) d = 0).
    { intros d Hd'. apply Hs; [cbn; cbn in Hl; tauto|exact Hd'|]. destruct Hl as [<-|[<-|[]]]; destruct d as [|[|[|?]]]; try lia; discriminate. }
    pose proof (G 0%nat ltac:(lia)). pose proof (G 1%nat ltac:(lia)). pose proof (G 2%nat ltac:(lia)). destruct (v l) as [a b e]. cbn in *. unfold vzero. numR. congruence. }
  pose proof (Hs 2%Z 2%nat ltac:(cbn; tauto) ltac:(lia) ltac:(discriminate)) as Z2.
  pose proof (Hm _ (V3 0 0 0) (V3 3 0 0) (or_introl eq_refl) ltac:(cbn; tauto) ltac:(cbn; tauto)) as M1.
  pose proof (Hm _ (V3 3 0 0) (V3 3 4 0) (or_intror (or_introl eq_refl)) ltac:(cbn; tauto) ltac:(cbn; tauto)) as M2.
  pose proof (F 1%Z ltac:(cbn; tauto)) as F1. pose proof (F 3%Z ltac:(cbn; tauto)) as F3. cbn [mb_a mb_b] in M1, M2. rewrite F1 in M1. rewrite F3 in M2.
  intros l [<-|[<-|[<-|[]]]]; cbn [fst]; [exact F1| |exact F3]. destruct (v 2%Z) as [a b e]. cbn in M1, M2, Z2. numR. unfold vzero. f_equal; cbn; lra.
Qed.

(** It can be loaded in five equal steps; the fifth state has load factor [5 d] up to
    a tenth. *)
Example C69_meets : exists d N m2 out lg x a, 0 < d /\
  ran_as (fun l => seq 0 (length l)) gauss (with_settings (corner_settings 5 d N) corner_built) 1 m2 out [lg] /\
  lg_out lg = repeat MIncr 5 /\ nth_error (lg_recs lg) 4 = Some (x, a) /\ Rabs (a_lpf a - 5 * d) <= 5 * (1 / 10 * d).
Proof.
  destruct (m_built corner_built) as [u|] eqn:Eu; [|lazy in Eu; discriminate]. destruct (m_forces corner_built) as [fh|] eqn:Ef; [|lazy in Ef; discriminate].
  assert (Hu : u_ndof1 u = 2%nat) by (lazy in Eu; injection Eu as <-; reflexivity).
  assert (Hf : forall r, In r (e_rows fh) -> (3 <= length r)%nat).
  { cut (Forall (fun r => (3 <= length r)%nat) (e_rows fh)); [intros H r Hr; rewrite Forall_forall in H; apply H, Hr|].
    lazy in Ef. injection Ef as <-. cbn [e_rows]. repeat constructor. }
  destruct (C69_load_control argsort_ins (fun l => seq 0 (length l)) gauss corner _ _ _ _ corner_built u fh 3
    argsort_ins_ok ltac:(intros l; apply Permutation_refl) (C60_solver _) corner_described) with (tau := 1 / 10) as (eta & C & He & HC & H).
  - exact corner_elastic.
  - exact corner_axes.
  - exact corner_rigid.
  - exact corner_builds.
  - exact Eu.
  - exact Ef.
  - exact Hf.
  - lia.
  - rewrite Hu. reflexivity.
  - lra.
  - destruct (H 8%Z 8%Z) as [N HN]. set (d := Rmin eta (eta / (5 * C))).
    assert (Hq : 0 < eta / (5 * C)) by (apply Rdiv_lt_0_compat; lra).
    assert (Hd1 : 0 < d) by (apply Rmin_pos; assumption). assert (Hd2 : d <= eta) by apply Rmin_l. assert (Hd3 : d <= eta / (5 * C)) by apply Rmin_r.
    destruct (HN (corner_settings 5 d (Z.of_nat N)) 5%nat 0%nat) as (m2 & out & lg & E1 & E2 & E3 & E4).
    + unfold small_control. rewrite Hu. cbn. repeat split; try lra; try lia. exists 0%Z. split; [reflexivity|lia].
    + reflexivity.
    + reflexivity.
    + cbn. lia.
    + lazy. reflexivity.
    + cbn. lra.
    + cbn [corner_settings s_dlpf]. replace (INR 5) with 5 by (cbn; lra). apply (Rmult_le_compat_l (5 * C)) in Hd3; [|lra].
      replace (5 * C * (eta / (5 * C))) with eta in Hd3 by (field; lra). lra.
    + destruct (nth_error (lg_recs lg) 4) as [[x a]|] eqn:E; [|apply nth_error_None in E; lia].
      exists d, (Z.of_nat N), m2, out, lg, x, a. split; [exact Hd1|]. split; [exact E1|]. split; [exact E2|]. split; [exact E|].
      destruct (E4 _ _ _ E) as (X1 & X2 & _ & X4 & _). rewrite Hu in X2. cbn [s_dlpf corner_settings] in X4.
      change (Z.to_nat (Z.abs 3 - 1)) with 2%nat in X4. rewrite X1 in X2, X4. rewrite app_length in X2. cbn [length] in X2.
      rewrite app_nth2 in X4 by lia. replace (2 - length (a_Ured a))%nat with 0%nat in X4 by lia. cbn [nth] in X4. replace (INR 5) with 5 in X4 by (cbn; lra).
      replace (5 * d) with (5 * (IZR (Z.sgn 3) * d)) by (cbn; ring). exact X4.
Qed.
