(** * Balance of the recorded results over the real numbers *)
From Coq Require Import List ZArith Bool Arith Lia Permutation Reals Lra.
Import ListNotations.
From Verif Require Import Num NumR Vec Handlers Material Analysis Truss Equil Solver Run ListFacts SpecMech SpecMechR
  EquilFacts MechFacts SpecSolver SolverFacts PathFacts StepFacts SpecStep SpecBuild SpecState SpecRun RunFacts RecFacts
  ReachFacts SessionFacts RunProps SpecRunR.
Local Open Scope R_scope.

Lemma gather_values (g : list R) D gr : gather g D = Ok gr -> Forall (fun p => (p < length g)%nat) D /\ gr = map (fun p => nth p g 0) D.
Proof.
  revert gr. induction D as [|p D IH]; intros gr H; cbn [gather] in H; [injection H as <-; auto|].
  destruct (nth_error g p) as [v|] eqn:E; [|discriminate]. apply bind_ok in H. destruct H as (xs & Hx & H). injection H as <-.
  destruct (IH _ Hx) as [I1 ->]. split.
  - constructor; [apply nth_error_Some; congruence|exact I1].
  - cbn. f_equal. symmetry. apply nth_error_nth, E.
Qed.
Lemma values_gather (g : list R) D : Forall (fun p => (p < length g)%nat) D -> gather g D = Ok (map (fun p => nth p g 0) D).
Proof.
  induction 1 as [|p D Hp _ IH]; [reflexivity|]. cbn [gather map]. rewrite (nth_error_nth' g 0 Hp), IH. reflexivity.
Qed.
Lemma norm_values (g : list R) D : fnorm (map (fun p => nth p g 0) D) = sqrt (sum_over D (fun p => nth p g 0 * nth p g 0)).
Proof. unfold fnorm. numR. f_equal. induction D as [|p D IH]; [reflexivity|]. cbn. numR. rewrite IH. reflexivity. Qed.

Lemma in_balance_R ftol x0 x (a : analysis R) : in_balance ftol x0 x a -> balanced ftol x0 x a.
Proof.
  intros (gr & dj & xj & x0j & H1 & H2 & H3 & H4 & H5). numR.
  apply Rltb_true in H5.
  destruct (fnorm_app_le (map fopp gr) [xj - (x0j + dj * IZR (Z.sgn (a_j a)))]) as [G1 G2].
  rewrite fnorm_opp in G1. rewrite fnorm_one in G2. destruct (gather_values _ _ _ H1) as [K1 ->]. rewrite norm_values in G1.
  split; [exact K1|]. split; [eapply Rle_lt_trans; eassumption|]. exists dj, xj, x0j.
  repeat match goal with |- _ /\ _ => split end; auto; eapply Rle_lt_trans; eassumption.
Qed.

Lemma sum_perm l1 l2 f : Permutation l1 l2 -> sum_over l1 f = sum_over l2 f.
Proof. unfold sum_over. induction 1; cbn [fold_right]; lra. Qed.

Lemma sum_app l1 l2 f : sum_over (l1 ++ l2) f = sum_over l1 f + sum_over l2 f.
Proof. unfold sum_over in *. induction l1 as [|a l IH]; cbn [fold_right app] in *; lra. Qed.

Lemma sum_ext l f g : (forall k, In k l -> f k = g k) -> sum_over l f = sum_over l g.
Proof.
  induction l as [|a l IH]; intros H; [reflexivity|]. cbn. rewrite (H a) by (left; reflexivity).
  fold (sum_over l f). fold (sum_over l g). rewrite IH; [reflexivity|]. intros k Hk. apply H. right. exact Hk.
Qed.

Lemma sum_lin l f g : sum_over l (fun k => f k + g k) = sum_over l f + sum_over l g.
Proof. unfold sum_over in *. induction l as [|a l IH]; cbn [fold_right] in *; lra. Qed.

Lemma sum_opp l f : sum_over l (fun k => - f k) = - sum_over l f.
Proof. unfold sum_over in *. induction l as [|a l IH]; cbn [fold_right] in *; lra. Qed.

Lemma sum_bound l f b : (forall k, In k l -> Rabs (f k) <= b) -> Rabs (sum_over l f) <= INR (length l) * b.
Proof.
  induction l as [|a l IH]; intros H.
  - cbn. rewrite Rabs_R0. lra.
  - cbn [sum_over fold_right length]. rewrite S_INR. fold (sum_over l f).
    pose proof (H a (or_introl eq_refl)). assert (Rabs (sum_over l f) <= INR (length l) * b) by (apply IH; intros; apply H; now right).
    pose proof (Rabs_triang (f a) (sum_over l f)). lra.
Qed.

Lemma filter_app {A} (p : A -> bool) l1 l2 : filter p (l1 ++ l2) = filter p l1 ++ filter p l2.
Proof. induction l1 as [|a l IH]; cbn; [reflexivity|]. destruct (p a); cbn; now rewrite IH. Qed.

Lemma perm_filter {A} (p : A -> bool) l1 l2 : Permutation l1 l2 -> Permutation (filter p l1) (filter p l2).
Proof.
  induction 1 as [|a l1 l2 H IH|a b l|l1 l2 l3 H1 I1 H2 I2]; cbn.
  - constructor.
  - destruct (p a); auto.
  - destruct (p a), (p b); auto. apply perm_swap.
  - eapply perm_trans; eassumption.
Qed.

Lemma filter_len {A} (p : A -> bool) l : (length (filter p l) <= length l)%nat.
Proof. induction l as [|a l IH]; cbn; [lia|]. destruct (p a); cbn; lia. Qed.

(** The components of one direction of a list of vectors. *)
Definition vget (d : nat) (v : v3 R) : R := match d with 0%nat => vx v | 1%nat => vy v | _ => vz v end.

Lemma seq_step n s : seq (3 * s) (3 * n) = flat_map (fun p => [3 * p; 3 * p + 1; 3 * p + 2]%nat) (seq s n).
Proof.
  revert s. induction n as [|n IH]; intros s; [reflexivity|].
  replace (3 * S n)%nat with (S (S (S (3 * n)))) by lia. cbn [seq flat_map app].
  replace (S (S (S (3 * s)))) with (3 * S s)%nat by lia. rewrite IH.
  replace (3 * s + 1)%nat with (S (3 * s)) by lia. replace (3 * s + 2)%nat with (S (S (3 * s))) by lia. reflexivity.
Qed.

Lemma in_direction_seq d n s : (d < 3)%nat -> in_direction d (seq (3 * s) (3 * n)) = map (fun p => (3 * p + d)%nat) (seq s n).
Proof.
  intros Hd. rewrite seq_step. unfold in_direction. revert s. induction n as [|n IH]; intros s; [reflexivity|].
  cbn [seq flat_map app map].
  assert (E : forall k, (k < 3)%nat -> ((3 * s + k) mod 3 = k)%nat).
  { intros k Hk. rewrite Nat.add_comm, Nat.mul_comm, Nat.mod_add by lia. apply Nat.mod_small, Hk. }
  pose proof (E 0%nat) as E0. rewrite Nat.add_0_r in E0.
  cbn [filter]. rewrite E0, !E by lia. 
  destruct d as [|[|[|d]]]; [| | |lia]; cbn [Nat.eqb]; rewrite IH; rewrite ?Nat.add_0_r; reflexivity.
Qed.

Lemma vflat_nth (l : list (v3 R)) : forall p d, (d < 3)%nat -> (p < length l)%nat ->
  nth (3 * p + d) (vflat l) 0 = vget d (nth p l vzero).
Proof.
  unfold vflat. induction l as [|v l IH]; intros p d Hd Hp; [cbn in Hp; lia|].
  cbn [flat_map]. destruct p as [|p].
  - destruct v as [x y z]. destruct d as [|[|[|d]]]; [reflexivity..|lia].
  - rewrite app_nth2 by (cbn; lia). replace (3 * S p + d - length (vlist v))%nat with (3 * p + d)%nat by (destruct v; cbn; lia).
    cbn [nth length] in *. apply IH; lia.
Qed.

Lemma vget_vsum d l : (d < 3)%nat -> vget d (vsum l) = fold_right (fun v s => vget d v + s) 0 l.
Proof.
  intros Hd. induction l as [|v l IH]; [destruct d as [|[|]]; reflexivity|].
  cbn [vsum fold_right]. fold (vsum l). rewrite <- IH. destruct v, (vsum l). destruct d as [|[|[|d]]]; [reflexivity..|lia].
Qed.

Lemma sum_nodes d (l : list (v3 R)) : (d < 3)%nat ->
  sum_over (map (fun p => (3 * p + d)%nat) (seq 0 (length l))) (fun k => nth k (vflat l) 0) = vget d (vsum l).
Proof.
  intros Hd. rewrite vget_vsum by exact Hd.
  assert (G : forall s l', (s + length l' = length l)%nat -> (forall i, nth i l' vzero = nth (s + i) l vzero) ->
    sum_over (map (fun p => (3 * p + d)%nat) (seq s (length l'))) (fun k => nth k (vflat l) 0) =
    fold_right (fun v s => vget d v + s) 0 l').
  { intros s l'. revert s. induction l' as [|v l' IH]; intros s Hs Hn; [reflexivity|].
    cbn [length seq map sum_over fold_right] in *.
    fold (sum_over (map (fun p => (3 * p + d)%nat) (seq (S s) (length l'))) (fun k => nth k (vflat l) 0)).
    rewrite IH; [|lia|].
    - rewrite vflat_nth by lia. pose proof (Hn 0%nat) as H0. cbn [nth] in H0. rewrite Nat.add_0_r in H0. rewrite <- H0. reflexivity.
    - intros i. specialize (Hn (S i)). cbn [nth] in Hn. rewrite Hn. f_equal. lia. }
  apply (G 0%nat l); auto.
Qed.

Lemma abs_le_fnorm (l : list R) x : In x l -> Rabs x <= fnorm l.
Proof.
  intros H. apply in_split in H. destruct H as (l1 & l2 & ->).
  destruct (fnorm_app_le l1 (x :: l2)) as [_ H2]. destruct (fnorm_app_le [x] l2) as [H1 _].
  rewrite fnorm_one in H1. cbn [app] in H1. lra.
Qed.

Lemma gather_In (l : list R) : forall idx r, gather l idx = Ok r -> forall k, In k idx -> In (nth k l 0) r.
Proof.
  induction idx as [|i idx IH]; intros r H k Hk; [contradiction|]. cbn [gather] in H.
  destruct (nth_error l i) as [v|] eqn:E; [|discriminate]. apply bind_ok in H. destruct H as (r' & Hr & H). injection H as <-.
  destruct Hk as [<-|Hk]; [left; symmetry; now apply nth_error_nth|right; eauto].
Qed.

Lemma reactions_balance (a : analysis R) ftol gr n d :
  (d < 3)%nat -> length (a_U a) = n -> length (a_r a) = n -> vsum (a_r a) = vzero -> residual_is a ->
  Permutation (a_DOF0 a ++ a_DOF1 a) (seq 0 (3 * n)) ->
  gather (a_g a) (a_DOF1 a) = Ok gr -> fnorm gr < ftol ->
  Rabs (sum_over (in_direction d (a_DOF0 a)) (reaction a) +
        sum_over (in_direction d (seq 0 (3 * n))) (external a))
  <= INR (length (a_DOF1 a)) * ftol.
Proof.
  intros Hd HU Hr Hs (Hlg & Hg) Hp Hgr Hf.
  assert (Hpd : Permutation (in_direction d (a_DOF0 a) ++ in_direction d (a_DOF1 a)) (in_direction d (seq 0 (3 * n)))).
  { unfold in_direction. rewrite <- filter_app. apply perm_filter, Hp. }
  assert (Hin : forall k, In k (seq 0 (3 * n)) -> nth k (a_g a) 0 = - reaction a k).
  { intros k Hk. apply in_seq in Hk. rewrite HU in Hg. specialize (Hg k ltac:(lia)). numR. unfold reaction, external. change (@f0 R _) with 0 in Hg. rewrite Hg. lra. }
  assert (Hin' : forall k, In k (in_direction d (seq 0 (3 * n))) -> In k (seq 0 (3 * n))) by (intros k Hk; apply filter_In in Hk; tauto).
  (* sum of the internal forces *)
  assert (H0 : sum_over (in_direction d (seq 0 (3 * n))) (fun k => nth k (vflat (a_r a)) 0) = 0).
  { change (seq 0 (3 * n)) with (seq (3 * 0) (3 * n)). rewrite (in_direction_seq d n 0 Hd), <- Hr, sum_nodes, Hs by exact Hd. destruct d as [|[|]]; reflexivity. }
  assert (H1 : sum_over (in_direction d (seq 0 (3 * n))) (external a) = - sum_over (in_direction d (seq 0 (3 * n))) (reaction a)).
  { rewrite <- sum_opp.
    assert (E : sum_over (in_direction d (seq 0 (3 * n))) (fun k => nth k (vflat (a_r a)) 0 + - reaction a k) =
                sum_over (in_direction d (seq 0 (3 * n))) (external a)).
    { apply sum_ext. intros k _. unfold reaction. lra. }
    rewrite sum_lin, H0 in E. lra. }
  rewrite H1, <- (sum_perm _ _ _ Hpd), sum_app.
  replace (_ + - _) with (sum_over (in_direction d (a_DOF1 a)) (fun k => - reaction a k)) by (rewrite sum_opp; lra).
  eapply Rle_trans.
  - apply (sum_bound _ _ ftol). intros k Hk. apply filter_In in Hk. destruct Hk as [Hk _].
    rewrite <- Hin.
    + pose proof (abs_le_fnorm gr _ (gather_In _ _ _ Hgr _ Hk)). lra.
    + eapply Permutation_in; [exact Hp|]. apply in_app_iff. now right.
  - apply Rmult_le_compat_r.
    + assert (0 <= fnorm gr) by (unfold fnorm; apply sqrt_pos). lra.
    + apply le_INR, filter_len.
Qed.
