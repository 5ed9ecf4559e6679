(** * Linear truss theory *)
From Coq Require Import List ZArith Bool Arith Reals.
Import ListNotations.
From Verif Require Import Num NumR Vec Handlers Analysis Truss SpecMech SpecMechR SpecBuild SpecSmall.
Local Open Scope R_scope.

Section Linear.
  (** Node rows, members, support rows and load rows as the user gives them. *)
  Variables (ns : list (Z * v3 R)) (ms : list (member R)) (bs : list (Z * list Z)) (fs : list (Z * list R)).
  (** Nodal displacements. *)
  Variable v : Z -> v3 R.

  Definition position (l : Z) : v3 R := row_for ns vzero l.

  (** From the begin to the end node of a bar. *)
  Definition bar (b : member R) : v3 R := vsub (position (mb_b b)) (position (mb_a b)).

  (** Relative displacement of the ends along the bar. *)
  Definition elongation (b : member R) : R :=
    vdot (bar b) (vsub (v (mb_b b)) (v (mb_a b))) / len (bar b).

  (** Hooke's law. *)
  Definition linear_force (b : member R) : R := EA b * elongation b / len (bar b).

  (** The force along the undeformed bar with which node [l] holds it. *)
  Definition linear_pull (l : Z) (b : member R) : v3 R :=
    let P := vscale (linear_force b / len (bar b)) (bar b) in
    if Z.eqb l (mb_b b) then P else if Z.eqb l (mb_a b) then vneg P else vzero.

  (** [v] vanishes at the supported components, and at the free ones (flag 1, or no
      support row) the bars carry the reference loads. *)
  Definition linear_solution : Prop :=
    (forall l d, In l (map fst ns) -> (d < 3)%nat -> nth d (row_for bs [1; 1; 1]%Z l) 0%Z <> 1%Z -> vget (v l) d = 0) /\
    (forall l d, In l (map fst ns) -> (d < 3)%nat -> nth d (row_for bs [1; 1; 1]%Z l) 0%Z = 1%Z ->
       rsum (map (fun b => vget (linear_pull l b) d) ms) = nth d (row_for fs [] l) 0).
End Linear.

(** The displacements and member forces recorded in [a] are the load factor recorded
    with them times those of the linear solution [v], up to [s]. *)
Definition near_linear (ns : list (Z * v3 R)) (ms : list (member R)) (labels : list Z) (v : Z -> v3 R) (s : R) (a : analysis R) : Prop :=
  (forall l d, In l (map fst ns) -> (d < 3)%nat -> Rabs (vget (row_of labels (a_U a) vzero l) d - a_lpf a * vget (v l) d) <= s) /\
  (forall i b, nth_error ms i = Some b -> exists N, nth_error (a_force a) i = Some N /\ Rabs (N - a_lpf a * linear_force ns v b) <= s).

(** The control component [j] of [n], the load factor (the last one) or the [j]-th of
    the active components [dofs], where component [d] of the [i]-th node has number
    [3 i + d], changes in the linear solution [v]. *)
Definition moves (labels : list Z) (dofs : list nat) (v : Z -> v3 R) (j : Z) (n : nat) : Prop :=
  Z.abs j = Z.of_nat n \/
  exists i l d, nth_error dofs (Z.to_nat (Z.abs j - 1)) = Some (3 * i + d)%nat /\ (d < 3)%nat /\ nth_error labels i = Some l /\ vget (v l) d <> 0.
