(** * Vocabulary for convergence of Newton's method in exact arithmetic *)
From Coq Require Import List ZArith Bool Arith Reals.
Import ListNotations.
From Verif Require Import Num NumR SpecForm.
Local Open Scope R_scope.

(** The vector [x] has [n] components, each within [d] of that of [y]. *)
Definition within (n : nat) (d : R) (x y : list R) : Prop :=
  length x = n /\ forall i, (i < n)%nat -> Rabs (nth i x 0 - nth i y 0) <= d.

(** All [n] components of [v] are at most [b] in absolute value. *)
Definition bounded (n : nat) (b : R) (v : list R) : Prop :=
  forall i, (i < n)%nat -> Rabs (nth i v 0) <= b.

(** No vector but zero is mapped to zero by the [n] by [n] matrix [M]. *)
Definition nonsingular (n : nat) (M : list (list R)) : Prop :=
  forall v, length v = n -> (forall i, (i < n)%nat -> row_times M v i = 0) ->
    forall i, (i < n)%nat -> nth i v 0 = 0.

(** [solve] returns the solution of every nonsingular system of [n] equations. *)
Definition solves (n : nat) (solve : list (list R) -> list R -> list R) : Prop :=
  forall M b, length M = n -> (forall row, In row M -> length row = n) -> nonsingular n M -> length b = n ->
    length (solve M b) = n /\ forall i, (i < n)%nat -> row_times M (solve M b) i = nth i b 0.
