(** * Vocabulary: nodal balance of the reported member forces, in double precision *)
From Coq Require Import List ZArith Bool Reals SpecFloat.
Import ListNotations.
From Verif Require Import Num NumR Vec Handlers Material Analysis Truss Equil SpecMech SpecMechR Double SpecRound Binary64 SpecBalance64.
Local Open Scope R_scope.

Section Spec.
  Variables (labels : list Z) (X U : list (v3 b64)).     (* coordinates and displacements of the nodes *)

  (** The numbers as real numbers, looked up by node label. *)
  Definition at_node (arr : list (v3 b64)) (l : Z) : v3 R := vmap real (row_of labels arr vzero l).

  (** Vector from the begin to the end of the displaced member. *)
  Definition span (m : member b64) : v3 R :=
    vadd (vsub (at_node X (mb_b m)) (at_node X (mb_a m))) (vsub (at_node U (mb_b m)) (at_node U (mb_a m))).

  (** Sum of the sizes of the numbers it is computed from. *)
  Definition size1 (v : v3 R) : R := Rabs (vx v) + Rabs (vy v) + Rabs (vz v).
  Definition reach (m : member b64) : R :=
    size1 (at_node X (mb_b m)) + size1 (at_node X (mb_a m)) + size1 (at_node U (mb_b m)) + size1 (at_node U (mb_a m)).

  (** Component [d] of what the member with normal force [N] adds to the internal
      force of node [l]. *)
  Definition pull64 (l : Z) (d : nat) (mN : member b64 * b64) : R :=
    if Z.eqb l (mb_b (fst mN)) then real (snd mN) * (vget (span (fst mN)) d / len (span (fst mN)))
    else if Z.eqb l (mb_a (fst mN)) then - (real (snd mN) * (vget (span (fst mN)) d / len (span (fst mN))))
    else 0.

  (** Members at node [l] with their forces. *)
  Definition members_at (l : Z) (mNs : list (member b64 * b64)) : list (member b64 * b64) :=
    filter (fun mN => Z.eqb l (mb_b (fst mN)) || Z.eqb l (mb_a (fst mN))) mNs.
End Spec.

(** The members at node [l] are neither tiny nor, by a factor over [K], shorter than
    the coordinates and displacements of their ends. *)
Definition fair (labels : list Z) (X U : list (v3 b64)) (l : Z) (K : R) (ms : list (member b64)) : Prop :=
  forall m, In m ms -> l = mb_a m \/ l = mb_b m ->
    powerRZ 2 (-399) <= len (span labels X U m) /\ reach labels X U m <= K * len (span labels X U m).

(** Component [d] of the balance of node [l], whose reported load is [c + lpf * f]. *)
Definition node_balance (n : Z) (K : R) (labels : list Z) (X : list (v3 b64)) (ms : list (member b64)) (a : analysis b64)
    (l : Z) (d : nat) (c f : R) : Prop :=
  let mNs := combine ms (a_force a) in
  let here := members_at l mNs in
  Rabs (- rsum (map (pull64 labels X (a_U a) l d) mNs) + c + real (a_lpf a) * f) <=
  (1 + powerRZ 2 (-48)) * powerRZ 10 (- n) + powerRZ 2 (-53) * (Rabs c + Rabs (real (a_lpf a) * f))
  + (INR (length here) + 8 * K) * powerRZ 2 (-51) * rsum (map (fun mN => Rabs (real (snd mN))) here)
  + powerRZ 2 (-400).
