(** * Vocabulary: material type 2 in double precision *)
From Coq Require Import List ZArith Reals.
Import ListNotations.
From Verif Require Import Num Analysis Material Double SpecRound Binary64 SpecBalance64 SpecHistory.
Local Open Scope R_scope.

(** Output of one evaluation: stress, stored yield stress, plastic strain. *)
Record out64 := Out64 { o_stress : b64; o_yield : b64; o_epl : b64 }.
Definition zero64 : out64 := Out64 f0 f0 f0.

(** Feeding the strain history [h] to the law, starting from zero state and passing
    the returned state on, yields the outputs [outs]. *)
Inductive run64 (mat : list b64) : list b64 -> list out64 -> Prop :=
| run64_nil : run64 mat [] []
| run64_snoc : forall h outs e de s t y p,
    run64 mat h outs ->
    umat_elplast_iso e de mat (Some [o_yield (last outs zero64); o_epl (last outs zero64)]) = Ok (s, t, Some [y; p]) ->
    run64 mat (h ++ [e]) (outs ++ [Out64 s y p]).

(** Nothing overflowed. *)
Definition fin_out (o : out64) : Prop := fin64 (o_stress o) /\ fin64 (o_yield o) /\ fin64 (o_epl o).

(** Material parameters: positive modulus and yield stress, no softening. *)
Definition params64 (E K Sy : b64) : Prop :=
  fin64 E /\ fin64 K /\ fin64 Sy /\ fin64 (fadd E K) /\ 0 < real E /\ 0 <= real K /\ 0 < real Sy.

(** Rounding error of one evaluation with strain [e] and former plastic strain [p],
    where stresses of the size [x] occur. *)
Definition slack (E K : b64) (x : R) : R :=
  powerRZ 2 (-47) * x + powerRZ 2 (-1068) * (1 + real E + real K + x).

(** Yield stress and plastic strain before the evaluation that follows [before]. *)
Definition yield_then (Sy : b64) (before : list out64) : b64 :=
  match before with [] => Sy | _ => o_yield (last before zero64) end.
Definition epl_then (before : list out64) : b64 := o_epl (last before zero64).

(** One evaluation at the strain [e] after [before] gives [o]: elastic-plastic split,
    hardening by the plastic strain, stress within the yield stress, plastic flow only
    at the yield stress and only in the direction of the elastic strain. *)
Definition step64 (E K Sy e : b64) (before : list out64) (o : out64) : Prop :=
  let y0 := real (yield_then Sy before) in let p0 := real (epl_then before) in
  let y := real (o_yield o) in let p := real (o_epl o) in let s := real (o_stress o) in
  let small := slack E K (real E * Rabs (real e - p0)) in
  real Sy <= y0 <= y /\
  Rabs (s - real E * (real e - p)) <= slack E K (real E * (Rabs (real e) + Rabs p0)) /\
  Rabs (y - (y0 + real K * Rabs (p - p0))) <= slack E K ((real E + real K) * (Rabs (real e) + Rabs p0)) /\
  Rabs s <= y + small /\
  ((y = y0 /\ p = p0) \/ y <= Rabs s + small) /\
  0 <= (p - p0) * (real e - p0).

(** What an increment shows of the plastic member number [k]. *)
Definition plastic64 (k : nat) (a : analysis b64) : out64 :=
  Out64 (fst (member_out k a)) (nth 0 (snd (member_out k a)) f0) (nth 1 (snd (member_out k a)) f0).
