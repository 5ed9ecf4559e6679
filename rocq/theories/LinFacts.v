(** * Near a regular point the equilibrium path is the linear one *)
From Coq Require Import List ZArith Bool Arith Lia Reals Lra.
From Coquelicot Require Import Coquelicot.
Import ListNotations.
From Verif Require Import Num NumR Vec Handlers Material Analysis Truss Equil Solver ListFacts SpecMaterial SpecMech SpecMechR EquilFacts MechFacts StiffFacts
  TangentFacts SpecState FrameFacts SpecNewton BallFacts OneFacts JacFacts NearFacts NewtonFacts SpecForm FormFacts PropForm SpecSmall.
Local Open Scope R_scope.

Section Approx.
  Variables (c : ctx R) (ms : list (member R)) (an : analysis R) (j : Z) (solve : list (list R) -> list R -> list R) (xs : list R).
  Notation n := (S (c_ndof1 c)).
  Notation p := (Z.to_nat (Z.abs j - 1)).
  Hypotheses (Hok : truss_ok c ms) (Hsz : sizes_ok c ms an) (Hld : loads_ok c an) (Hpr : props_ok c ms an)
    (Hf0 : gather (concat (a_forces an)) (a_DOF1 an) = Ok (a_f0red an)) (Hxs : length xs = n)
    (Hj : (1 <= Z.abs j <= Z.of_nat n)%Z) (Hsol : solves n solve).
  Variables (an2 : analysis R) (Km : list (list R)).
  Hypotheses (HK : dfdx (stiffness c) j xs an = Ok (an2, Km)) (Hreg : regular c ms an (a_U an2)) (Hns : nonsingular n Km).
  Hypothesis (H0 : forall i, (i < c_ndof1 c)%nat -> nth i (F0 c an xs j 0 xs) 0 = 0).

  Lemma control_row z : length z = n -> row_times Km z (c_ndof1 c) = nth p z 0.
  Proof.
    intros Hz. destruct (J0_entry c ms an xs j Hok Hsz Hld Hpr Hxs Hf0 Hj xs Hxs) as [_ HE].
    rewrite (row_times_len _ _ _ n Hz). rewrite <- (rsum_delta (fun k => nth k z 0) n p ltac:(lia)). apply rsum_ext. intros k Hk. apply in_seq in Hk.
    rewrite <- (J_is c an j xs an2 Km HK), HE by lia. unfold J_entry. rewrite Nat.eqb_refl. destruct (Nat.eqb k p); ring.
  Qed.

  Lemma approx y : length y = n -> (forall i, (i < c_ndof1 c)%nat -> row_times Km y i = 0) -> nth p y 0 = 1 ->
    exists C0, 0 < C0 /\ forall e, 0 < e -> exists r, 0 < r /\ forall x s b, within n s x xs -> 0 <= s <= r -> 0 <= b ->
      (forall i, (i < c_ndof1 c)%nat -> Rabs (nth i (F0 c an xs j 0 x) 0) <= b) ->
      forall i, (i < n)%nat -> Rabs (nth i x 0 - nth i xs 0 - (nth p x 0 - nth p xs 0) * nth i y 0) <= C0 * (b + e * s).
  Proof.
    intros Ly Hy Hyp. destruct (J0_entry c ms an xs j Hok Hsz Hld Hpr Hxs Hf0 Hj xs Hxs) as [Hsq _]. rewrite (J_is c an j xs an2 Km HK) in Hsq.
    destruct (lower_bound n solve Hsol Km Hsq Hns) as (C & HC & Hlow). set (C0 := C * (1 + INR n)).
    assert (Hn0 : 0 < INR n) by (apply lt_0_INR; lia).
    exists C0. split; [unfold C0; nra|]. intros e He.
    destruct (derivatives c ms an j xs Hok Hsz Hld Hpr Hf0 Hxs Hj an2 Km HK Hreg) as (d1 & Hd1 & D1).
    destruct (entries c ms an j xs Hok Hsz Hld Hpr Hf0 Hxs Hj an2 Km HK Hreg e He) as (d2 & Hd2 & D2).
    exists (Rmin d1 d2). split; [apply Rmin_pos; assumption|]. intros x s b Hx Hs Hb0 Hb.
    set (r := Rmin d1 d2) in *. set (w := (xs, 0) : target).
    assert (D1' : forall z, within n r z xs -> forall i k, (i < n)%nat -> (k < n)%nat ->
      is_derive (fun t => nth i (resid c an j w (set_nth k t z)) 0) (nth k z 0) (ent (J0 c an j z) i k)).
    { intros z Hz. apply D1; [exact Hxs|]. eapply within_le; [exact Hz|apply Rmin_l]. }
    assert (D2' : forall z, within n r z xs -> forall i k, (i < n)%nat -> (k < n)%nat -> Rabs (ent (J0 c an j z) i k - ent (J0 c an j xs) i k) <= e).
    { intros z Hz. apply D2. eapply within_le; [exact Hz|apply Rmin_r]. }
    assert (Hxs' : within n r xs xs) by (split; [exact Hxs|]; intros i Hi; rewrite Rminus_eq_0, Rabs_R0; unfold r; apply Rlt_le, Rmin_pos; assumption).
    assert (Hxr : within n r x xs) by (eapply within_le; [exact Hx|apply Hs]).
    set (mu := nth p x 0 - nth p xs 0).
    set (z := map (fun i => nth i x 0 - nth i xs 0 - mu * nth i y 0) (seq 0 n)).
    assert (Lz : length z = n) by (unfold z; rewrite map_length, seq_length; reflexivity).
    assert (Hz : forall i, (i < n)%nat -> nth i z 0 = nth i x 0 - nth i xs 0 - mu * nth i y 0).
    { intros i Hi. unfold z. apply (nth_map_seq (fun i => nth i x 0 - nth i xs 0 - mu * nth i y 0)). exact Hi. }
    intros i Hi. rewrite <- Hz by exact Hi.
    replace (C0 * (b + e * s)) with (C * ((1 + INR n) * (b + e * s))) by (unfold C0; ring). revert i Hi. apply Hlow; [exact Lz|].
    assert (Hes : 0 <= e * s) by (apply Rmult_le_pos; lra).
    intros i Hi. destruct (Nat.eq_dec i (c_ndof1 c)) as [->|Hne].
    { rewrite control_row by exact Lz. rewrite Hz by lia. rewrite Hyp. unfold mu. match goal with |- Rabs ?t <= _ => replace t with 0 by ring end. rewrite Rabs_R0. nra. }
    assert (Hi' : (i < c_ndof1 c)%nat) by lia.
    destruct (mean_value n (resid c an j w) (J0 c an j) xs r e D1' D2' xs x i Hxs' Hxr Hi) as (a & Ha & E).
    assert (Ef : forall V, resid c an j w V = F0 c an xs j 0 V) by reflexivity. rewrite !Ef, H0, Rminus_0_r in E by exact Hi'.
    assert (Er : row_times Km z i = nth i (F0 c an xs j 0 x) 0 - rsum (map (fun k => (a k - ent Km i k) * (nth k x 0 - nth k xs 0)) (seq 0 n))).
    { rewrite E, <- rsum_minus. rewrite (row_times_len _ _ _ n Lz).
      replace (rsum (map (fun k => ent Km i k * nth k z 0) (seq 0 n))) with
        (rsum (map (fun k => ent Km i k * (nth k x 0 - nth k xs 0) - mu * (ent Km i k * nth k y 0)) (seq 0 n))).
      - rewrite rsum_minus, rsum_scal. specialize (Hy i Hi'). rewrite (row_times_len _ _ _ n Ly) in Hy. rewrite Hy, Rmult_0_r, Rminus_0_r.
        apply rsum_ext. intros; ring.
      - apply rsum_ext. intros k Hk. apply in_seq in Hk. rewrite Hz by lia. ring. }
    rewrite Er. unfold Rminus at 1. eapply Rle_trans; [apply Rabs_triang|]. rewrite Rabs_Ropp.
    assert (B2 : Rabs (rsum (map (fun k => (a k - ent Km i k) * (nth k x 0 - nth k xs 0)) (seq 0 n))) <= INR n * (e * s)).
    { apply rsum_bound. intros k Hk. rewrite Rabs_mult. apply Rmult_le_compat; try apply Rabs_pos; [|apply Hx, Hk].
      rewrite <- (J_is c an j xs an2 Km HK). apply Ha, Hk. }
    specialize (Hb i Hi'). nra.
  Qed.
End Approx.

(** ** Rows of the stiffness matrix *)
Section Rows.
  Variables (c : ctx R) (ms : list (member R)) (an : analysis R).
  Hypotheses (Hok : truss_ok c ms) (Hsz : sizes_ok c ms an).

  Lemma vget_mvec (M : m3 R) v d : vget (mvec M v) d = vget (vget M d) 0 * vget v 0 + vget (vget M d) 1 * vget v 1 + vget (vget M d) 2 * vget v 2.
  Proof. destruct M as [[] [] []], v. destruct d as [|[|d]]; unfold mvec, vmap, vdot; cbn [vget Vec.vx Vec.vy Vec.vz]; numR; reflexivity. Qed.

  Lemma K_row U v x i : length x = c_ndof1 c -> spreads c an x v -> 
    rsum (map (fun k => K_entry c ms an U i (nth k (a_DOF1 an) 0%nat) * nth k x 0) (seq 0 (c_ndof1 c))) =
    rsum (map (fun km => sg (snd km) (lab c i) * vget (mvec (mem_K c an U km) (delta v (snd km))) (i mod 3)) (combine (seq 0 (length ms)) ms)).
  Proof.
    intros Hx [Hv1 Hv0]. pose proof Hok as (Hnd & _ & _ & _ & Hnodes). pose proof Hsz as (_ & _ & _ & _ & _ & _ & _ & _ & HD & HD' & Hn & _).
    set (N := length (c_labels c)) in *. set (w := fun q => vget (v (lab c q)) (q mod 3)).
    assert (Hlab : forall q, (q < 3 * N)%nat -> nth_error (c_labels c) (q / 3) = Some (lab c q)).
    { intros q Hq. apply nth_nth_error. apply Nat.div_lt_upper_bound; unfold N in Hq; lia. }
    assert (Hxw : forall k, (k < c_ndof1 c)%nat -> nth k x 0 = w (nth k (a_DOF1 an) 0%nat)).
    { intros k Hk. pose proof (nth_nth_error (a_DOF1 an) k 0%nat ltac:(lia)) as Ek. unfold w. symmetry. apply Hv1; [exact Ek|].
      apply Hlab. apply HD'. eapply nth_error_In; eauto. }
    rewrite (rsum_ext _ (fun k => (fun q => K_entry c ms an U i q * w q) (nth k (a_DOF1 an) 0%nat))).
    2:{ intros k Hk. apply in_seq in Hk. rewrite Hxw by lia. reflexivity. }
    rewrite Hn, <- (rsum_index (fun q => K_entry c ms an U i q * w q) (a_DOF1 an) 0%nat).
    rewrite <- (rsum_support _ (a_DOF1 an) HD (seq 0 (3 * N)) (seq_NoDup _ _)).
    2:{ intros q Hq. apply in_seq. specialize (HD' q Hq). lia. }
    2:{ intros q Hq Hnq. apply in_seq in Hq. unfold w. rewrite Hv0; [ring|apply Hlab; lia|exact Hnq]. }
    rewrite (rsum_ext _ (fun q => rsum (map (fun km => sg (snd km) (lab c i) * (sg (snd km) (lab c q) * vget (vget (mem_K c an U km) (i mod 3)) (q mod 3) * w q)) (combine (seq 0 (length ms)) ms)))).
    2:{ intros q _. unfold K_entry. rewrite Rmult_comm, <- rsum_scal. apply rsum_ext. intros km _. ring. }
    rewrite rsum_swap. apply rsum_ext. intros [k m] Hkm. cbn [snd]. rewrite rsum_scal. f_equal.
    set (M := mem_K c an U (k, m)). assert (Hm : In m ms) by (apply in_combine_r in Hkm; exact Hkm). destruct (Hnodes m Hm) as (Ha & Hb & Hab).
    rewrite rsum_thirds.
    rewrite (rsum_ext _ (fun t => (fun l => sg m l * vget (mvec M (v l)) (i mod 3)) (nth t (c_labels c) 0%Z))).
    2:{ intros t _. unfold w, lab. replace (3 * t)%nat with (3 * t + 0)%nat at 1 2 3 4 by lia.
        rewrite !(proj1 (div3 t 0 ltac:(lia))), !(proj2 (div3 t 0 ltac:(lia))), !(proj1 (div3 t 1 ltac:(lia))), !(proj2 (div3 t 1 ltac:(lia))), !(proj1 (div3 t 2 ltac:(lia))), !(proj2 (div3 t 2 ltac:(lia))).
        rewrite vget_mvec. ring. }
    unfold N. rewrite <- (rsum_index (fun l => sg m l * vget (mvec M (v l)) (i mod 3)) (c_labels c) 0%Z).
    rewrite (rsum_double _ _ (mb_a m) (mb_b m)); auto.
    - unfold sg. rewrite !Z.eqb_refl. destruct (Z.eqb_spec (mb_a m) (mb_b m)); [contradiction|]. unfold delta. rewrite !vget_mvec.
      destruct (v (mb_a m)) as [x1 x2 x3], (v (mb_b m)) as [y1 y2 y3]. unfold vsub, vmap2. cbn [vget Vec.vx Vec.vy Vec.vz]. numR. ring.
    - intros l H1 H2. unfold sg. destruct (Z.eqb_spec l (mb_b m)); [contradiction|]. destruct (Z.eqb_spec l (mb_a m)); [contradiction|]. ring.
  Qed.
End Rows.
