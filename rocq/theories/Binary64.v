(** * The type of double precision numbers

    Like Double.v with the encodings that are no doubles left out: what a NumPy array
    of dtype float64 can hold. *)
From Coq Require Import List ZArith Bool SpecFloat.
Import ListNotations.
From Verif Require Import Num Double SpecRound RoundFacts.

Record b64 := B64 { sf : double; sf_ok : is_double sf }.

#[global] Instance NumB64 : Num b64 := {|
  f0 := B64 f0 eq_refl; f1 := B64 f1 eq_refl; fnan := B64 fnan eq_refl;
  fadd a b := B64 (fadd (sf a) (sf b)) (dbl_add _ _ (sf_ok a) (sf_ok b));
  fsub a b := B64 (fsub (sf a) (sf b)) (dbl_sub _ _ (sf_ok a) (sf_ok b));
  fmul a b := B64 (fmul (sf a) (sf b)) (dbl_mul _ _ (sf_ok a) (sf_ok b));
  fdiv a b := B64 (fdiv (sf a) (sf b)) (dbl_div _ _ (sf_ok a) (sf_ok b));
  fopp a := B64 (fopp (sf a)) (dbl_opp _ (sf_ok a));
  fabs a := B64 (fabs (sf a)) (dbl_abs _ (sf_ok a));
  fsqrt a := B64 (fsqrt (sf a)) (dbl_sqrt _ (sf_ok a));
  ftrunc a := B64 (ftrunc (sf a)) (dbl_trunc _ (sf_ok a));
  fltb a b := fltb (sf a) (sf b); fleb a b := fleb (sf a) (sf b); feqb a b := feqb (sf a) (sf b);
  fofZ z := B64 (fofZ z) (dbl_ofZ z) |}.
