(** * Vocabulary: numbers that are neither infinite nor NaN *)
From Coq Require Import List ZArith Bool Arith SpecFloat.
Import ListNotations.
From Verif Require Import Num Vec Analysis Equil SpecMech Double.

Definition finite (x : double) : Prop :=
  match x with S754_zero _ | S754_finite _ _ _ => True | S754_infinity _ | S754_nan => False end.

(** Component [d] of node number [p] is an active DOF. *)
Definition is_active (a : analysis double) (p d : nat) : Prop := In (3 * p + d)%nat (a_DOF1 a) /\ (d < 3)%nat.

(** Node number [p] (in the order of [labels]) is an end of the member. *)
Definition end_of (labels : list Z) (p : nat) (m : member double) : Prop :=
  nth_error labels p = Some (mb_a m) \/ nth_error labels p = Some (mb_b m).

(** The load factor, and at every active DOF the residual and the internal force,
    are finite.  For each member at a node with an active DOF the force, the stress
    and the stretch are finite, and so is that displacement component. *)
Definition numbers (labels : list Z) (ms : list (member double)) (a : analysis double) : Prop :=
  finite (a_lpf a) /\
  forall p d, is_active a p d ->
    finite (nth (3 * p + d) (a_g a) f0) /\ finite (nth (3 * p + d) (vflat (a_r a)) f0) /\
    forall k m, nth_error ms k = Some m -> end_of labels p m ->
      finite (nth (3 * p + d) (vflat (a_U a)) f0) /\
      exists N s lam, nth_error (a_force a) k = Some N /\ finite N /\ nth_error (a_stress a) k = Some s /\ finite s /\
        nth_error (a_stretch a) k = Some lam /\ finite lam.
