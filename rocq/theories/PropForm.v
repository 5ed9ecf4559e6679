(** * C51 the stiffness matrix as a quadratic form, exact arithmetic

    Vocabulary: SpecMech.v, SpecMechR.v, SpecForm.v. *)
From Coq Require Import List ZArith Bool Arith Lia Reals Lra.
From Coquelicot Require Import Coquelicot.
Import ListNotations.
From Verif Require Import Num NumR Vec Handlers Material Analysis Truss Equil Solver ListFacts SpecMaterial SpecMech SpecMechR SpecForm.
From Verif Require Import MaterialFacts EquilFacts MechFacts StiffFacts TangentFacts ExTruss EnergyFacts FormFacts PropMech.
Local Open Scope R_scope.

Lemma spread_exists c ms an x : truss_ok c ms -> sizes_ok c ms an -> length x = c_ndof1 c -> exists v, spreads c an x v.
Proof.
  intros (Hnd & _) (HU & _ & _ & _ & _ & _ & _ & _ & HD & HD' & Hn & _) Hx.
  set (Z := repeat (vzero (F:=R)) (length (c_labels c))).
  assert (HZ : length Z = length (c_labels c)) by apply repeat_length.
  destruct (scatter_total Z (a_DOF1 an) x) as [W HW]; [intros; rewrite HZ; auto|lia|].
  assert (Hx' : length x = length (a_DOF1 an)) by lia. destruct (scatter_ok _ _ _ _ HD Hx' HW) as (LW & F0 & G0). rewrite HZ in LW.
  exists (row_of (c_labels c) W vzero).
  assert (Hval : forall p l, nth_error (c_labels c) (p / 3) = Some l -> nth_error (vflat W) p = Some (vget (row_of (c_labels c) W vzero l) (p mod 3))).
  { intros p l Hl. rewrite nth_error_vflat, row_of_nth by (auto; eapply nth_error_In; eauto). rewrite (idx_of_nth _ _ _ Hnd Hl).
    rewrite (nth_nth_error W (p / 3) vzero); [reflexivity|]. rewrite LW. apply nth_error_Some. congruence. }
  split.
  - intros i p l Hi Hl. pose proof (G0 _ _ Hi) as G. rewrite (Hval _ _ Hl) in G. symmetry. apply nth_error_nth. congruence.
  - intros p l Hl Hni. pose proof (F0 _ Hni) as G. rewrite (Hval _ _ Hl) in G.
    assert (Hp : (p / 3 < length (c_labels c))%nat) by (apply nth_error_Some; congruence).
    rewrite nth_error_vflat in G. unfold Z in G. rewrite nth_error_repeat in G. destruct (Nat.ltb_spec (p / 3) (length (c_labels c))); [|lia].
    cbn [option_map] in G. rewrite vget_vzero in G. congruence.
Qed.

(** C51: x . K x is the sum of the contributions of the members, for the whole matrix
    and for the returned one. *)
Theorem C51_form : forall c ms u an an' K,
  truss_ok c ms -> sizes_ok c ms an -> stiffness c u an = Ok (an', K) ->
  (forall v, full_form c (a_K an') v = rsum (map (member_form c an (a_U an') v) (combine (seq 0 (length ms)) ms))) /\
  (forall x v, length x = c_ndof1 c -> spreads c an x v ->
     reduced_form K x = rsum (map (member_form c an (a_U an') v) (combine (seq 0 (length ms)) ms))).
Proof.
  intros c ms u an an' K Hok Hsz H. split.
  - intros v. eapply full_form_members; eauto.
  - intros x v Hx Hv. rewrite (reduced_full c ms u an an' K x v) by auto. eapply full_form_members; eauto.
Qed.
Print Assumptions C51_form.

Lemma member_In {A} (ms : list A) k m : In (k, m) (combine (seq 0 (length ms)) ms) -> nth_error ms k = Some m.
Proof.
  intros H. apply In_nth_error in H. destruct H as [i Hi]. rewrite nth_error_combine, nth_error_seq in Hi.
  destruct (Nat.ltb i (length ms)); [|discriminate]. destruct (nth_error ms i) eqn:E; [|discriminate]. injection Hi as <- <-. exact E.
Qed.

Lemma In_member {A} (ms : list A) m : In m ms -> exists k, In (k, m) (combine (seq 0 (length ms)) ms) /\ nth_error ms k = Some m.
Proof.
  intros H. apply In_nth_error in H. destruct H as [k Hk]. exists k. split; [|exact Hk].
  apply nth_error_In with k. rewrite nth_error_combine, nth_error_seq, Hk.
  destruct (Nat.ltb_spec k (length ms)) as [|Hge]; [reflexivity|]. apply nth_error_None in Hge. congruence.
Qed.

(** C51: if no member is in compression and no tangent is negative, the matrix is
    positive semidefinite. *)
Theorem C51_positive : forall c ms u an an' K,
  truss_ok c ms -> sizes_ok c ms an -> stiffness c u an = Ok (an', K) -> long c ms (a_U an') ->
  (forall k m, nth_error ms k = Some m -> 0 <= force_of c an (a_U an') k m /\ 0 <= axial_of c an (a_U an') k m) ->
  (forall v, 0 <= full_form c (a_K an') v) /\
  (forall x, length x = c_ndof1 c -> 0 <= reduced_form K x).
Proof.
  intros c ms u an an' K Hok Hsz H Hl Hp. destruct (C51_form _ _ _ _ _ _ Hok Hsz H) as [A B].
  assert (P : forall v, 0 <= rsum (map (member_form c an (a_U an') v) (combine (seq 0 (length ms)) ms))).
  { intros v. apply rsum_nonneg. intros [k m] Hin. apply member_In in Hin. destruct (Hp _ _ Hin) as [P1 P2].
    destruct (Hl m) as [H1 H2]; [eapply nth_error_In; eauto|]. apply member_form_pos; auto. }
  split; [intros v; rewrite A; apply P|]. intros x Hx. destruct (spread_exists c ms an x Hok Hsz Hx) as [v Hv]. rewrite (B x v Hx Hv). apply P.
Qed.
Print Assumptions C51_positive.

(** C51: if every member is in tension with a positive tangent and every component
    of every node is locked or joined by members to a locked one, the returned matrix
    is positive definite; in particular K x = 0 only for x = 0. *)
Theorem C51_regular : forall c ms u an an' K,
  truss_ok c ms -> sizes_ok c ms an -> stiffness c u an = Ok (an', K) -> long c ms (a_U an') ->
  (forall k m, nth_error ms k = Some m -> 0 < force_of c an (a_U an') k m /\ 0 < axial_of c an (a_U an') k m) ->
  (forall l d, In l (c_labels c) -> (d < 3)%nat -> held c ms an d l) ->
  (forall x, length x = c_ndof1 c -> (exists i, nth i x 0 <> 0) -> 0 < reduced_form K x) /\
  (forall x, length x = c_ndof1 c -> (forall i, (i < c_ndof1 c)%nat -> row_times K x i = 0) -> x = repeat 0 (c_ndof1 c)).
Proof.
  intros c ms u an an' K Hok Hsz H Hl Hp Hh.
  assert (D : forall x, length x = c_ndof1 c -> reduced_form K x = 0 -> x = repeat 0 (c_ndof1 c)).
  { intros x Hx E. destruct (C51_form _ _ _ _ _ _ Hok Hsz H) as [_ B]. destruct (spread_exists c ms an x Hok Hsz Hx) as [v Hv].
    rewrite (B x v Hx Hv) in E.
    assert (Hm : forall m, In m ms -> v (mb_b m) = v (mb_a m)).
    { intros m Hin. destruct (In_member ms m Hin) as (k & Hk & Hn). destruct (Hp _ _ Hn) as [P1 P2]. destruct (Hl m Hin) as [H1 H2].
      apply (member_form_0 c an (a_U an') v k m); auto.
      apply (rsum_nonneg_0 (member_form c an (a_U an') v) (combine (seq 0 (length ms)) ms)); auto.
      intros [k' m'] Hin'. apply member_In in Hin'. destruct (Hp _ _ Hin') as [P3 P4]. destruct (Hl m') as [H3 H4]; [eapply nth_error_In; eauto|].
      apply member_form_pos; auto; lra. }
    apply nth_error_ext. intros i. rewrite nth_error_repeat. destruct (Nat.ltb_spec i (c_ndof1 c)) as [Hi|Hi]; [|apply nth_error_None; lia].
    rewrite (nth_nth_error x i 0) by lia. f_equal.
    destruct Hsz as (_ & _ & _ & _ & _ & _ & _ & _ & HD & HD' & Hn & _).
    pose proof (nth_nth_error (a_DOF1 an) i 0%nat ltac:(lia)) as Ei. set (p := nth i (a_DOF1 an) 0%nat) in *.
    assert (Hp3 : (p / 3 < length (c_labels c))%nat) by (apply Nat.div_lt_upper_bound; [lia|]; apply HD'; eapply nth_error_In; eauto).
    pose proof (nth_nth_error (c_labels c) _ 0%Z Hp3) as Lp.
    destruct Hv as [V1 V2]. rewrite <- (V1 _ _ _ Ei Lp).
    apply (held_zero c ms an x v (p mod 3)); [apply Hok|apply Nat.mod_upper_bound; lia|split; auto|exact Hm|].
    apply Hh; [eapply nth_error_In; eauto|apply Nat.mod_upper_bound; lia]. }
  split.
  - intros x Hx [i Hi]. destruct (C51_positive c ms u an an' K Hok Hsz H Hl) as [_ P].
    { intros k m Hk. destruct (Hp _ _ Hk). lra. }
    specialize (P x Hx). destruct (Req_dec (reduced_form K x) 0) as [E|]; [|lra].
    exfalso. apply Hi. rewrite (D x Hx E). apply nth_repeat.
  - intros x Hx H0. apply D; auto. unfold reduced_form. apply rsum_zero. intros i Hi. apply in_seq in Hi. rewrite H0 by lia. ring.
Qed.
Print Assumptions C51_regular.

(** C51: applied to a small rotation theta about any point p, the matrix gives the
    internal forces turned by theta (so nothing if there are no internal forces). *)
Theorem C51_rotation : forall c ms u an an' K V V0 w an1 g theta p l,
  truss_ok c ms -> sizes_ok c ms an -> stiffness c u an = Ok (an', K) ->
  equilibrium c V V0 w an = Ok (an1, g) -> a_U an1 = a_U an' -> long c ms (a_U an') -> In l (c_labels c) ->
  vsum (map (fun l' => mvec (K_block c (a_K an') l l') (cross theta (vsub (place c (a_U an') l') p))) (c_labels c)) =
  cross theta (row_of (c_labels c) (a_r an1) vzero l).
Proof.
  intros c ms u an an' K V V0 w an1 g theta p l Hok Hsz H He EU Hl Hin. eapply stiffness_rotation; eauto. intros m Hm. apply Hl. exact Hm.
Qed.
Print Assumptions C51_rotation.

(** The example truss with node 2 moved by (1,-1): both members are stretched, the
    second one yields; node 2 is held in every component. *)
Lemma ex_stiffness_at an' K : stiffness ex_ctx [1; -1] ex_an = Ok (an', K) -> a_U an' = [V3 0 0 0; V3 1 (-1) 0; V3 0 0 0].
Proof.
  intros H. destruct (stiffness_inv _ _ _ _ _ _ ex_truss ex_sizes H) as (an1 & u & lam & qs & Hp & _ & E & _).
  subst an'. cbn [a_U set_Kred].
  pose proof (loop_frame StK ex_ctx u lam false (zipk 0 ex_ms qs) an1) as Hf. cbn zeta in Hf. destruct Hf as (-> & _).
  destruct (prepare_U _ _ _ _ _ _ _ _ _ Hp eq_refl) as [_ H2]. destruct (H2 eq_refl) as [H3 _].
  cbn in H3. injection H3 as <-. reflexivity.
Qed.

Lemma len_nonzero v : 0 < vx v * vx v + vy v * vy v + vz v * vz v -> len v <> 0.
Proof. intros H E. unfold len in E. pose proof (sqrt_lt_R0 _ H). lra. Qed.

Lemma sqrt_above a b : 0 <= a -> a * a < b -> a < sqrt b.
Proof. intros Ha H. rewrite <- (sqrt_square a Ha) at 1. apply sqrt_lt_1_alt. split; [nra|exact H]. Qed.

Example C51_meets : exists an' K, stiffness ex_ctx [1; -1] ex_an = Ok (an', K) /\ long ex_ctx ex_ms (a_U an') /\
  (forall k m, nth_error ex_ms k = Some m -> 0 < force_of ex_ctx ex_an (a_U an') k m /\ 0 < axial_of ex_ctx ex_an (a_U an') k m) /\
  (forall l d, In l (c_labels ex_ctx) -> (d < 3)%nat -> held ex_ctx ex_ms ex_an d l).
Proof.
  destruct (ex_stiffness [1; -1] eq_refl) as (an' & K & H). exists an', K. split; [exact H|]. rewrite (ex_stiffness_at an' K H).
  set (U := [V3 0 0 0; V3 1 (-1) 0; V3 0 0 0]). set (m1 := Mb 7 1 2 UmatEl [210; 0; 0] [1]). set (m2 := Mb 9 2 5 UmatPl [100; 10; 1] [2]).
  assert (X1 : axis0 ex_ctx m1 = V3 3 0 0) by (unfold axis0, vsub, vmap2; cbn; f_equal; ring).
  assert (X2 : axis0 ex_ctx m2 = V3 0 4 0) by (unfold axis0, vsub, vmap2; cbn; f_equal; ring).
  assert (Y1 : axis ex_ctx U m1 = V3 4 (-1) 0) by (unfold axis, place, vsub, vadd, vmap2; cbn; f_equal; ring).
  assert (Y2 : axis ex_ctx U m2 = V3 (-1) 5 0) by (unfold axis, place, vsub, vadd, vmap2; cbn; f_equal; ring).
  split; [|split].
  - intros m [<-|[<-|[]]]; fold m1; fold m2; rewrite ?X1, ?X2, ?Y1, ?Y2; split; apply len_nonzero; cbn; lra.
  - assert (S1 : 1 < stretch_of ex_ctx U m1).
    { unfold stretch_of. rewrite X1, Y1. assert (len (V3 3 0 0) = 3) as -> by (unfold len; cbn; apply sqrt_sq; lra).
      assert (3 < len (V3 4 (-1) 0)) by (unfold len; cbn; apply sqrt_above; lra). lra. }
    assert (S2 : 12 / 10 < stretch_of ex_ctx U m2).
    { unfold stretch_of. rewrite X2, Y2. assert (len (V3 0 4 0) = 4) as -> by (unfold len; cbn; apply sqrt_sq; lra).
      assert (5 < len (V3 (-1) 5 0)) by (unfold len; cbn; apply sqrt_above; lra). lra. }
    intros [|[|k]] m Hm; cbn in Hm; [| |destruct k; discriminate]; injection Hm as <-.
    + fold m1. unfold force_of, axial_of, stress_at, tangent_at. set (e := stretch_of ex_ctx U m1) in *. cbn. split; lra.
    + fold m2. unfold force_of, axial_of, stress_at, tangent_at. set (e := stretch_of ex_ctx U m2 - 1) in *.
      change (state_row ex_ctx ex_an 1) with (Some [0; 0]). unfold m2. cbn [mb_law mb_mat mb_geo umat nth]. rewrite umat_pl_eq. cbn zeta.
      unfold yield_before. destruct (Req_EM_T 0 0) as [_|]; [|lra].
      assert (Ht : 20 < 100 * (e - 0)) by (unfold e; lra). rewrite (Rabs_right (100 * (e - 0))) by lra.
      destruct (Rle_dec (100 * (e - 0) - 1) 0); [lra|]. split; [|lra].
      replace (2 * ((1 - (100 * (e - 0) - 1) / (100 + 10) * 100 / (100 * (e - 0))) * (100 * (e - 0))))
        with (2 * (100 * (e - 0) - (100 * (e - 0) - 1) * (100 / 110))) by (field; lra). lra.
  - assert (H1 : forall d, (d < 3)%nat -> held ex_ctx ex_ms ex_an d 1).
    { intros d Hd. apply (held_locked _ _ _ _ 0%nat); [reflexivity|]. cbn. lia. }
    assert (H2 : forall d, (d < 3)%nat -> held ex_ctx ex_ms ex_an d 2) by (intros d Hd; apply (held_ab _ _ _ _ m1); [left; reflexivity|apply H1; exact Hd]).
    intros l d [<-|[<-|[<-|[]]]] Hd; auto. apply (held_ab _ _ _ _ m2); [right; left; reflexivity|]. apply H2; exact Hd.
Qed.

(** Both evaluations of the rotation theorem exist for the same displacements. *)
Example C51_rotation_meets : exists an' K an1 g, stiffness ex_ctx [1; -1] ex_an = Ok (an', K) /\
  equilibrium ex_ctx [1; -1; 2] [0; 0; 0] true ex_an = Ok (an1, g) /\ a_U an1 = a_U an'.
Proof.
  destruct (ex_stiffness [1; -1] eq_refl) as (an' & K & H). destruct (ex_equilibrium [1; -1; 2] [0; 0; 0] true eq_refl eq_refl) as (an1 & g & He).
  exists an', K, an1, g. split; [exact H|]. split; [exact He|]. rewrite (ex_stiffness_at an' K H).
  destruct (residual_formula ex_ctx ex_ms [1; -1; 2] [0; 0; 0] true _ _ _ ex_truss ex_sizes ex_loads eq_refl He) as (HS & _). cbn in HS. injection HS as <-. reflexivity.
Qed.
