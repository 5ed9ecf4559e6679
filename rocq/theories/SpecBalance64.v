(** * Vocabulary: balance in double precision, up to rounding *)
From Coq Require Import List ZArith Bool Reals SpecFloat.
Import ListNotations.
From Verif Require Import Num Vec Analysis Double SpecDouble SpecRound Binary64.
Local Open Scope R_scope.

(** The real number a double stands for. *)
Definition real (x : b64) : R := val (sf x).
Definition fin64 (x : b64) : Prop := finite (sf x).

(** [s] has [n] decimal digits at least, up to the rounding of a sum whose terms add
    up to [t] in absolute value: half a unit in the last place each time. *)
Definition digits (n : Z) (s t : R) : Prop :=
  Rabs s <= (1 + powerRZ 2 (-48)) * powerRZ 10 (- n) + powerRZ 2 (-53) * t + powerRZ 2 (-500).

(** At DOF [k] the recorded internal force [r], constant force [c], load factor and
    reference force [f] are finite, and as real numbers [- r + c + lpf * f] is small. *)
Definition balance64 (n : Z) (a : analysis b64) (k : nat) : Prop :=
  let r := nth k (vflat (a_r a)) f0 in let c := nth k (concat (a_fconst a)) f0 in let f := nth k (concat (a_forces a)) f0 in
  fin64 r /\ fin64 c /\ fin64 (a_lpf a) /\ fin64 f /\
  digits n (- real r + real c + real (a_lpf a) * real f) (Rabs (real r) + Rabs (real c) + Rabs (real (a_lpf a) * real f)).

(** The control component [|j|] of the solution is where it was plus or minus the
    step [dVmax] for it. *)
Definition led64 (n : Z) (x0 x : list b64) (a : analysis b64) : Prop :=
  exists d xj x0j, py_get (a_dVmax a) (Z.abs (a_j a) - 1) = Ok d /\
    py_get x (Z.abs (a_j a) - 1) = Ok xj /\ py_get x0 (Z.abs (a_j a) - 1) = Ok x0j /\
    fin64 d /\ fin64 xj /\ fin64 x0j /\
    digits n (real xj - (real x0j + real d * IZR (Z.sgn (a_j a)))) (Rabs (real x0j) + Rabs (real d)).

(** Neither zero nor infinite nor NaN. *)
Definition nonzero (x : b64) : Prop := match sf x with S754_finite _ _ _ => True | _ => False end.
