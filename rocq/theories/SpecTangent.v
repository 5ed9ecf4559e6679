(** * Vocabulary: the stiffness matrix stored with a result *)
From Coq Require Import List ZArith Bool Arith.
Import ListNotations.
From Verif Require Import Num Vec Analysis Equil SpecMech SpecState SpecSolver.

Section Spec.
  Context {F : Type} `{NF : Num F}.

  (** [row] is the unit row of the control component [j]: one at position |j|,
      counted from 1 (the last position if [j] is 0), zero elsewhere. *)
  Definition unit_row (n : nat) (j : Z) (row : list F) : Prop :=
    length row = n /\ forall k, k < n -> nth k row f0 =
      if Z.eqb (Z.of_nat k + 1) (if Z.eqb j 0 then Z.of_nat n else Z.abs j) then f1 else f0.

  (** The matrices stored in the result [a] at the point [x] belong to a point
      [y]: an evaluation of the stiffness at [y], with the supports, loads and
      state variables of the previous result [a0], gave them.  [y] is the point
      [x] itself or [x] came from [y] by a correction shorter than [tol]. *)
  Definition stiffness_from (c : ctx F) (ms : list (member F)) (tol : F) (a0 : analysis F)
      (x : list F) (a : analysis F) (y : list F) (b b' : analysis F) : Prop :=
    same_setup a0 b /\ a_state b = a_state a0 /\ sizes_ok c ms b /\ length y = length x /\
    stiffness c (removelast y) b = Ok (b', a_Kred a) /\ a_K a = a_K b' /\
    exists dx, fltb (euclid dx) tol = true /\ (x = y \/ bcast2 fadd y dx = Ok x).

  (** The extended matrix: minus the reference load as last column, the unit row
      of the control component as last row. *)
  Definition extends (a : analysis F) (n : nat) : Prop :=
    exists row, unit_row n (a_j a) row /\
      a_Kmod a = map2 (fun r v => r ++ [fopp v]) (a_Kred a) (a_f0red a) ++ [row].
End Spec.
