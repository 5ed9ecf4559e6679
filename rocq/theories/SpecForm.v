(** * Vocabulary for the stiffness matrix as a quadratic form, exact arithmetic *)
From Coq Require Import List ZArith Bool Arith Reals.
Import ListNotations.
From Verif Require Import Num NumR Vec Handlers Material Analysis Truss Equil SpecMaterial SpecMech SpecMechR.
Local Open Scope R_scope.

(** Sum of v(l) . K(l,l') v(l') over all pairs of nodes, for a nodal field [v]. *)
Definition full_form (c : ctx R) (K : list (list (m3 R))) (v : Z -> v3 R) : R :=
  rsum (map (fun l => rsum (map (fun l' => vdot (v l) (mvec (K_block c K l l') (v l'))) (c_labels c))) (c_labels c)).

(** Row [i] of a matrix times a vector, and x . K x. *)
Definition row_times (K : list (list R)) (x : list R) (i : nat) : R :=
  rsum (map (fun j => nth j (nth i K []) 0 * nth j x 0) (seq 0 (length x))).
Definition reduced_form (K : list (list R)) (x : list R) : R :=
  rsum (map (fun i => nth i x 0 * row_times K x i) (seq 0 (length x))).

(** The nodal field [v] has the values [x] at the active components and zero at the others. *)
Definition spreads (c : ctx R) (an : analysis R) (x : list R) (v : Z -> v3 R) : Prop :=
  (forall i p l, nth_error (a_DOF1 an) i = Some p -> nth_error (c_labels c) (p / 3) = Some l ->
     vget (v l) (p mod 3) = nth i x 0) /\
  (forall p l, nth_error (c_labels c) (p / 3) = Some l -> ~ In p (a_DOF1 an) -> vget (v l) (p mod 3) = 0).

(** Stress and tangent of a law at a strain. *)
Definition stress_at (u : umat_id) (mat : list R) (row : option (list R)) (e : R) : R :=
  match umat u e 0 mat row with Ok (s, _, _) => s | _ => 0 end.
Definition tangent_at (u : umat_id) (mat : list R) (row : option (list R)) (e : R) : R :=
  match umat u e 0 mat row with Ok (_, t, _) => t | _ => 0 end.

Section Form.
  Variables (c : ctx R) (an : analysis R) (U : list (v3 R)).

  (** Normal force and axial stiffness (tangent times area) of the [k]-th member [m]. *)
  Definition force_of (k : nat) (m : member R) : R :=
    nth 0 (mb_geo m) 0 * stress_at (mb_law m) (mb_mat m) (state_row c an k) (stretch_of c U m - 1).
  Definition axial_of (k : nat) (m : member R) : R :=
    nth 0 (mb_geo m) 0 * tangent_at (mb_law m) (mb_mat m) (state_row c an k) (stretch_of c U m - 1).

  (** Contribution of a member: axial stiffness over undeformed length times the square
      of the relative end displacement along the bar, plus force over length times the
      square of the part across it. *)
  Definition member_form (v : Z -> v3 R) (km : nat * member R) : R :=
    let m := snd km in
    let d := vsub (v (mb_b m)) (v (mb_a m)) in
    let along := vdot (direction c U m) d in
    axial_of (fst km) m / len (axis0 c m) * along ^ 2 +
    force_of (fst km) m / len (axis c U m) * (vdot d d - along ^ 2).
End Form.

(** No member of length zero, undeformed or under [U]. *)
Definition long (c : ctx R) (ms : list (member R)) (U : list (v3 R)) : Prop :=
  forall m, In m ms -> len (axis0 c m) <> 0 /\ len (axis c U m) <> 0.

(** Component [d] of node [l] is held: locked, or joined by members to a node at which it is. *)
Inductive held (c : ctx R) (ms : list (member R)) (an : analysis R) (d : nat) : Z -> Prop :=
| held_locked i l : nth_error (c_labels c) i = Some l -> ~ In (3 * i + d)%nat (a_DOF1 an) -> held c ms an d l
| held_ab m : In m ms -> held c ms an d (mb_a m) -> held c ms an d (mb_b m)
| held_ba m : In m ms -> held c ms an d (mb_b m) -> held c ms an d (mb_a m).
