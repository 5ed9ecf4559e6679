(** * IEEE 754 double precision

    The instance of [Num] for the arithmetic NumPy computes in: binary64, round to
    nearest even, as specified in Coq's standard library (Coq.Floats.SpecFloat,
    computable and without axioms).  Unlike the primitive floats of FloatRun.v these
    numbers can be reasoned about.

    Simplifications: the conversion of a too large Python integer gives an infinity
    (Python raises OverflowError); the cast of an infinity or NaN to an integer type
    returns it unchanged (NumPy gives an unspecified integer). *)
From Coq Require Import List ZArith Bool SpecFloat.
Import ListNotations.
From Verif Require Import Num.

Definition double := spec_float.

(** Python int to float *)
Definition d_ofZ (z : Z) : double := binary_normalize 53 1024 z 0 false.

(** Cast to an integer type: round toward zero *)
Definition d_trunc (x : double) : double :=
  match x with
  | S754_finite s m e =>
      if (0 <=? e)%Z then x
      else let n := Z.shiftr (Zpos m) (- e) in d_ofZ (if s then - n else n)
  | _ => x
  end.

#[global] Instance NumDouble : Num double := {|
  f0 := S754_zero false; f1 := d_ofZ 1; fnan := S754_nan;
  fadd := SFadd 53 1024; fsub := SFsub 53 1024; fmul := SFmul 53 1024; fdiv := SFdiv 53 1024;
  fopp := SFopp; fabs := SFabs; fsqrt := SFsqrt 53 1024; ftrunc := d_trunc;
  fltb := SFltb; fleb := SFleb; feqb := SFeqb; fofZ := d_ofZ |}.
