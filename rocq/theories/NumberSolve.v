(** * A linear solver that does not care about the order of the unknowns *)
From Coq Require Import List ZArith Bool Arith Lia Permutation Reals Lra.
Import ListNotations.
From Verif Require Import Num NumR NumFix SpecMechR SpecForm FormFacts SpecNewton BallFacts GaussFacts SpecNumber PickFacts NumberBuild.
Local Open Scope R_scope.

(** Gaussian elimination for nonsingular systems, zero for the others.  A matrix is
    nonsingular if the solutions for the unit vectors make up a left inverse. *)
Definition unit_vec (n k : nat) : list R := map (fun i => if Nat.eqb i k then 1 else 0) (seq 0 n).
Definition entry (M : list (list R)) (i j : nat) : R := nth j (nth i M []) 0.
Definition regular (n : nat) (M : list (list R)) : bool :=
  forallb (fun i => forallb (fun l =>
    if Req_EM_T (rsum (map (fun k => entry M k i * nth l (gauss M (unit_vec n k)) 0) (seq 0 n))) (if Nat.eqb l i then 1 else 0) then true else false)
    (seq 0 n)) (seq 0 n).
Definition regular_gauss (M : list (list R)) (b : list R) : list R :=
  let n := length b in
  if Nat.eqb (length M) n && forallb (fun r => Nat.eqb (length r) n) M && regular n M then gauss M b else repeat 0 n.

Definition square (n : nat) (M : list (list R)) : Prop := length M = n /\ forall row, In row M -> length row = n.

Lemma times_n M v i n : length v = n -> row_times M v i = rsum (map (fun k => entry M i k * nth k v 0) (seq 0 n)).
Proof. intros <-. reflexivity. Qed.
Lemma nth_mapseq (f : nat -> R) n i : (i < n)%nat -> nth i (map f (seq 0 n)) 0 = f i.
Proof. intros H. rewrite (nth_indep _ 0 (f 0%nat)) by (rewrite map_length, seq_length; exact H). rewrite (map_nth f (seq 0 n) 0%nat i), seq_nth by exact H. reflexivity. Qed.
Lemma sum_delta (w : nat -> R) n l : (l < n)%nat -> rsum (map (fun k => (if Nat.eqb k l then 1 else 0) * w k) (seq 0 n)) = w l.
Proof.
  intros H. assert (G : forall a c, rsum (map (fun k => (if Nat.eqb k l then 1 else 0) * w k) (seq a c)) = if (a <=? l)%nat && (l <? a + c)%nat then w l else 0).
  { intros a c. revert a. induction c as [|c IH]; intros a; cbn [seq map rsum fold_right].
    - destruct (Nat.leb_spec a l), (Nat.ltb_spec l (a + 0)); cbn; try lia; reflexivity.
    - change (fold_right Rplus 0 ?x) with (rsum x). rewrite IH. destruct (Nat.eqb_spec a l) as [E|E].
      + subst. destruct (Nat.leb_spec (S l) l), (Nat.leb_spec l l), (Nat.ltb_spec l (l + S c)); cbn; try lia. lra.
      + destruct (Nat.leb_spec (S a) l), (Nat.leb_spec a l), (Nat.ltb_spec l (S a + c)), (Nat.ltb_spec l (a + S c)); cbn; try lia; lra. }
  rewrite G. destruct (Nat.leb_spec 0 l), (Nat.ltb_spec l (0 + n)); cbn; try lia. reflexivity.
Qed.

Lemma regular_spec n M : regular n M = true <->
  forall i l, (i < n)%nat -> (l < n)%nat -> rsum (map (fun k => entry M k i * nth l (gauss M (unit_vec n k)) 0) (seq 0 n)) = if Nat.eqb l i then 1 else 0.
Proof.
  unfold regular. rewrite forallb_forall. split.
  - intros H i l Hi Hl. specialize (H i (proj2 (in_seq _ _ _) (conj (Nat.le_0_l _) Hi))). rewrite forallb_forall in H.
    specialize (H l (proj2 (in_seq _ _ _) (conj (Nat.le_0_l _) Hl))). destruct (Req_EM_T _ _) as [E|E]; [exact E|discriminate].
  - intros H i Hi. apply in_seq in Hi. apply forallb_forall. intros l Hl. apply in_seq in Hl. destruct (Req_EM_T _ _) as [E|E]; [reflexivity|]. exfalso. apply E, H; lia.
Qed.

Lemma regular_nonsingular n M : regular n M = true -> nonsingular n M.
Proof.
  intros H v Hv H0 l Hl. pose proof (proj1 (regular_spec n M) H) as Hr. clear H.
  transitivity (rsum (map (fun i => (if Nat.eqb i l then 1 else 0) * nth i v 0) (seq 0 n))); [symmetry; apply sum_delta, Hl|].
  transitivity (rsum (map (fun i => rsum (map (fun k => (entry M k i * nth i v 0) * nth l (gauss M (unit_vec n k)) 0) (seq 0 n))) (seq 0 n))).
  { apply rsum_ext. intros i Hi. apply in_seq in Hi. rewrite Nat.eqb_sym, <- (Hr i l) by lia. rewrite Rmult_comm, <- rsum_scal. apply rsum_ext. intros k _. ring. }
  rewrite rsum_swap. apply rsum_zero. intros k Hk. apply in_seq in Hk.
  transitivity (nth l (gauss M (unit_vec n k)) 0 * rsum (map (fun i => entry M k i * nth i v 0) (seq 0 n))).
  { rewrite <- rsum_scal. apply rsum_ext. intros i _. ring. }
  rewrite <- times_n, H0 by lia. ring.
Qed.

Lemma nonsingular_regular n M : square n M -> nonsingular n M -> regular n M = true.
Proof.
  intros [HM Hrow] Hns. apply regular_spec. intros i l Hi Hl.
  assert (Hu : forall k, length (unit_vec n k) = n) by (intros k; unfold unit_vec; rewrite map_length, seq_length; reflexivity).
  set (y := fun l => rsum (map (fun k => entry M k i * nth l (gauss M (unit_vec n k)) 0) (seq 0 n)) - (if Nat.eqb l i then 1 else 0)).
  assert (Y0 : y l = 0); [|unfold y in Y0; lra].
  rewrite <- (nth_mapseq y n l Hl). apply Hns; [rewrite map_length, seq_length; reflexivity| |exact Hl].
  intros r Hr. rewrite (times_n _ _ _ n) by (rewrite map_length, seq_length; reflexivity).
  transitivity (rsum (map (fun j => entry M r j * rsum (map (fun k => entry M k i * nth j (gauss M (unit_vec n k)) 0) (seq 0 n)) - (if Nat.eqb j i then 1 else 0) * entry M r j) (seq 0 n))).
  { apply rsum_ext. intros j Hj. apply in_seq in Hj. rewrite nth_mapseq by lia. unfold y. ring. }
  rewrite rsum_minus, sum_delta by exact Hi.
  transitivity (rsum (map (fun k => (if Nat.eqb k r then 1 else 0) * entry M k i) (seq 0 n)) - entry M r i); [|rewrite sum_delta by exact Hr; lra]. f_equal.
  transitivity (rsum (map (fun j => rsum (map (fun k => entry M k i * (entry M r j * nth j (gauss M (unit_vec n k)) 0)) (seq 0 n))) (seq 0 n))).
  { apply rsum_ext. intros j _. rewrite <- rsum_scal. apply rsum_ext. intros k _. ring. }
  rewrite rsum_swap. apply rsum_ext. intros k Hk. apply in_seq in Hk. rewrite rsum_scal.
  destruct (gauss_solves n M (unit_vec n k) HM Hrow Hns (Hu k)) as [Lg Eg]. rewrite <- times_n, Eg by assumption.
  unfold unit_vec. rewrite nth_mapseq, Nat.eqb_sym by exact Hr. ring.
Qed.

(** ** Another order *)
Lemma nth_pick0 {A} q (l : list A) i d : within (length l) q -> (i < length q)%nat -> nth i (pick q l) d = nth (nth i q 0%nat) l d.
Proof.
  intros W Hi. assert (Hq : nth_error q i = Some (nth i q 0%nat)) by (apply nth_error_nth', Hi).
  assert (Hlt : (nth i q 0 < length l)%nat) by (unfold within in W; rewrite Forall_forall in W; apply W, nth_In, Hi).
  apply nth_error_nth. rewrite nth_pick, Hq by exact W. apply nth_error_nth', Hlt.
Qed.
Lemma sum_order (f : nat -> R) n q : order n q -> rsum (map (fun i => f (nth i q 0%nat)) (seq 0 n)) = rsum (map f (seq 0 n)).
Proof. intros Hq. rewrite <- (order_length _ _ Hq) at 1. rewrite <- rsum_index. apply rsum_perm, Permutation_map, Hq. Qed.

Section Order.
  Variable n : nat.
  Variable M : list (list R).
  Hypothesis HM : square n M.
  Variable q : list nat.
  Hypothesis Hq : order n q.
  Notation M' := (map (pick q) (pick q M)).

  Lemma Wq : within n q. Proof. apply order_within, Hq. Qed.
  Lemma Lq : length q = n. Proof. apply order_length, Hq. Qed.
  Lemma q_lt i : (i < n)%nat -> (nth i q 0 < n)%nat.
  Proof. intros H. pose proof Wq as W. unfold within in W. rewrite Forall_forall in W. apply W, nth_In. rewrite Lq. exact H. Qed.
  Lemma square_pick : square n M'.
  Proof.
    destruct HM as [L F]. split; [rewrite map_length, pick_length by (rewrite L; apply Wq); apply Lq|]. intros row Hr. apply in_map_iff in Hr. destruct Hr as (r & <- & Hr).
    apply In_pick in Hr. destruct Hr as (i & _ & Hr). apply nth_error_In in Hr. rewrite pick_length by (rewrite (F _ Hr); apply Wq). apply Lq.
  Qed.
  Lemma entry_pick i j : (i < n)%nat -> (j < n)%nat -> entry M' i j = entry M (nth i q 0%nat) (nth j q 0%nat).
  Proof.
    intros Hi Hj. destruct HM as [L F]. unfold entry. rewrite (nth_indep _ [] (pick q [])) by (rewrite map_length, pick_length, Lq by (rewrite L; apply Wq); exact Hi).
    rewrite (map_nth (pick q)), (nth_pick0 q M i []); [|rewrite L; apply Wq|rewrite Lq; exact Hi]. apply nth_pick0; [|rewrite Lq; exact Hj].
    rewrite F by (apply nth_In; rewrite L; apply q_lt, Hi). apply Wq.
  Qed.
  Lemma times_pick v i : length v = n -> (i < n)%nat -> row_times M' (pick q v) i = row_times M v (nth i q 0%nat).
  Proof.
    intros Hv Hi. rewrite (times_n _ _ _ n) by (rewrite pick_length, Lq by (rewrite Hv; apply Wq); reflexivity). rewrite (times_n M v _ n Hv).
    rewrite <- (sum_order (fun k => entry M (nth i q 0%nat) k * nth k v 0) n q Hq). apply rsum_ext. intros j Hj. apply in_seq in Hj. rewrite entry_pick by lia. rewrite nth_pick0; [reflexivity|rewrite Hv; apply Wq|rewrite Lq; lia].
  Qed.
  Lemma back : exists q', order n q' /\ forall A (l : list A), length l = n -> pick q (pick q' l) = l /\ pick q' (pick q l) = l.
  Proof.
    destruct (perm_pick (seq 0 n) q (Permutation_sym Hq)) as (q' & Ho & E). rewrite Lq in Ho. exists q'. split; [exact Ho|].
    assert (G : forall A (l : list A), length l = n -> pick q' (pick q l) = l).
    { intros A l Hl. rewrite pick_pick by (rewrite Hl; apply Wq). rewrite <- E, <- Hl. apply pick_all. }
    intros A l Hl. split; [|apply G, Hl].
    destruct (perm_pick (seq 0 n) q' (Permutation_sym Ho)) as (q2 & Ho2 & E2). rewrite (order_length _ _ Ho) in Ho2.
    assert (G2 : forall A (l : list A), length l = n -> pick q2 (pick q' l) = l).
    { intros B l0 Hl0. rewrite pick_pick by (rewrite Hl0; apply order_within, Ho). rewrite <- E2, <- Hl0. apply pick_all. }
    assert (q = q2) as ->; [|apply G2, Hl].
    assert (E3 : pick q2 (seq 0 n) = q2).
    { pose proof (order_within _ _ Ho2) as W2. clear - W2. induction W2 as [|i l Hi W IH]; [reflexivity|]. rewrite pick_cons, (nth_error_nth' _ 0%nat) by (rewrite seq_length; exact Hi). rewrite seq_nth by exact Hi. cbn. f_equal. exact IH. }
    rewrite <- E3, E. symmetry. exact (G2 _ q Lq).
  Qed.
  Lemma nonsingular_pick : nonsingular n M -> nonsingular n M'.
  Proof.
    intros Hns v Hv H0 i Hi. destruct back as (q' & Ho & B). destruct (B _ v Hv) as [B1 _].
    assert (Lw : length (pick q' v) = n) by (rewrite pick_length by (rewrite Hv; apply order_within, Ho); apply order_length, Ho).
    rewrite <- B1. rewrite nth_pick0 by (rewrite ?Lw, ?Lq; auto using Wq). apply (Hns _ Lw); [|apply q_lt, Hi].
    intros k Hk. destruct (order_at _ _ _ Hq Hk) as [a Ha]. assert (La : (a < n)%nat) by (rewrite <- Lq; apply nth_error_Some; congruence).
    rewrite <- (nth_error_nth _ _ 0%nat Ha). rewrite <- times_pick by assumption. rewrite B1. apply H0, La.
  Qed.
End Order.

Lemma nonsingular_same n M q : square n M -> order n q -> nonsingular n M <-> nonsingular n (map (pick q) (pick q M)).
Proof.
  intros HM Hq. split; [apply nonsingular_pick; assumption|]. intros H. destruct (back n q Hq) as (q' & Ho & B).
  pose proof (nonsingular_pick n _ (square_pick n M HM q Hq) q' Ho H) as G. rewrite pick_map in G. rewrite (proj2 (B _ M (proj1 HM))) in G. rewrite map_map in G.
  rewrite (map_ext_in _ (fun r => r)), map_id in G; [exact G|]. intros r Hr. apply (B _ r). apply HM, Hr.
Qed.

Lemma shape_ok n (M : list (list R)) : length M = n -> Forall (fun row => length row = n) M -> (Nat.eqb (length M) n && forallb (fun r => Nat.eqb (length r) n) M)%bool = true.
Proof. intros -> F. rewrite Nat.eqb_refl. cbn [andb]. apply forallb_forall. intros r Hr. apply Nat.eqb_eq. rewrite Forall_forall in F. apply F, Hr. Qed.

Theorem regular_gauss_blind : order_blind regular_gauss.
Proof.
  split.
  - intros M b H. unfold regular_gauss. cbv zeta. destruct (Nat.eqb (length M) (length b) && forallb (fun r => Nat.eqb (length r) (length b)) M)%bool eqn:E; cbn [andb]; [|apply repeat_length].
    apply andb_prop in E. destruct E as [E1 E2]. apply Nat.eqb_eq in E1. rewrite forallb_forall in E2.
    destruct (regular (length b) M) eqn:Er; [|apply repeat_length].
    apply (gauss_solves (length b) M b E1); [|apply regular_nonsingular, Er|reflexivity]. intros r Hr. apply Nat.eqb_eq, E2, Hr.
  - intros M b q Hq HL HF. unfold regular_gauss. cbv zeta. set (n := length b) in *.
    assert (HM : square n M) by (split; [exact HL|]; intros r Hr; rewrite Forall_forall in HF; apply HF, Hr).
    pose proof (square_pick n M HM q Hq) as HM'. assert (Lb : length (pick q b) = n) by (rewrite pick_length; [apply (Lq n), Hq|apply (Wq n), Hq]).
    rewrite Lb, !shape_ok; [|exact HL|exact HF|apply HM'|apply Forall_forall, HM']. cbn [andb].
    assert (Er : regular n (map (pick q) (pick q M)) = regular n M).
    { apply Bool.eq_iff_eq_true. split; intros H.
      - apply nonsingular_regular; [exact HM|]. apply (nonsingular_same n M q HM Hq), regular_nonsingular, H.
      - apply nonsingular_regular; [exact HM'|]. apply (nonsingular_same n M q HM Hq), regular_nonsingular, H. }
    rewrite Er. destruct (regular n M) eqn:Eg.
    + pose proof (regular_nonsingular n M Eg) as Hns. pose proof (proj1 (nonsingular_same n M q HM Hq) Hns) as Hns'.
      destruct (gauss_solves n M b HL (proj2 HM) Hns eq_refl) as [Lx Ex]. destruct (gauss_solves n _ _ (proj1 HM') (proj2 HM') Hns' Lb) as [Lx' Ex'].
      set (x := gauss M b) in *. set (x' := gauss (map (pick q) (pick q M)) (pick q b)) in *.
      assert (Lpx : length (pick q x) = n) by (rewrite pick_length; [apply (Lq n), Hq|rewrite Lx; apply (Wq n), Hq]).
      apply (nth_ext _ _ 0 0); [congruence|]. rewrite Lx'. intros i Hi.
      assert (D : nth i (map (fun i => nth i x' 0 - nth i (pick q x) 0) (seq 0 n)) 0 = 0).
      { apply Hns'; [rewrite map_length, seq_length; reflexivity| |exact Hi]. intros k Hk. rewrite (times_n _ _ _ n) by (rewrite map_length, seq_length; reflexivity).
        transitivity (row_times (map (pick q) (pick q M)) x' k - row_times (map (pick q) (pick q M)) (pick q x) k).
        - rewrite (times_n _ x' k n Lx'), (times_n _ (pick q x) k n Lpx), <- rsum_minus. apply rsum_ext. intros j Hj. apply in_seq in Hj. rewrite nth_mapseq by lia. ring.
        - rewrite Ex' by exact Hk. rewrite (times_pick n M HM q Hq x k Lx Hk), Ex by (apply (q_lt n q Hq), Hk).
          rewrite nth_pick0; [ring|apply (Wq n), Hq|rewrite (Lq n q Hq); exact Hk]. }
      rewrite nth_mapseq in D by exact Hi. lra.
    + rewrite pick_repeat by (apply (Wq n), Hq). rewrite (Lq n q Hq). reflexivity.
Qed.

(** It solves every nonsingular system. *)
Theorem regular_gauss_solves n : solves n regular_gauss.
Proof.
  intros M b HL Hrow Hns Hb. assert (HF : Forall (fun row => length row = n) M) by (apply Forall_forall, Hrow).
  unfold regular_gauss. cbv zeta. rewrite Hb, (shape_ok n M HL HF), (nonsingular_regular n M (conj HL Hrow) Hns). cbn [andb]. apply gauss_solves; assumption.
Qed.
