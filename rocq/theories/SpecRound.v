(** * Vocabulary: doubles as real numbers *)
From Coq Require Import ZArith Bool Reals SpecFloat.
From Verif Require Import Num Double.
Local Open Scope R_scope.

(** The encodings that are double precision numbers: a mantissa of 53 bits (fewer
    for the subnormal ones) and an exponent in range. *)
Definition is_double (x : double) : Prop := valid_binary 53 1024 x = true.

(** The real number a double stands for (zero for infinities and NaN). *)
Definition val (x : double) : R :=
  match x with
  | S754_finite s m e => (if s then -1 else 1) * IZR (Zpos m) * powerRZ 2 e
  | _ => 0
  end.
