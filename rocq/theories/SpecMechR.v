(** * Vocabulary for the mechanics properties in exact arithmetic *)
From Coq Require Import List ZArith Bool Arith Reals.
Import ListNotations.
From Verif Require Import Num NumR Vec Handlers Material Analysis Truss Equil SpecMaterial SpecMech.
Local Open Scope R_scope.

(** Length of a vector, cross product, matrix times vector, transpose. *)
Definition len (v : v3 R) : R := sqrt (vx v * vx v + vy v * vy v + vz v * vz v).
Definition cross (a b : v3 R) : v3 R :=
  V3 (vy a * vz b - vz a * vy b) (vz a * vx b - vx a * vz b) (vx a * vy b - vy a * vx b).
Definition mvec (M : m3 R) (v : v3 R) : v3 R := vmap (fun row => vdot row v) M.
Definition mtr (M : m3 R) : m3 R :=
  V3 (V3 (vx (vx M)) (vx (vy M)) (vx (vz M)))
     (V3 (vy (vx M)) (vy (vy M)) (vy (vz M)))
     (V3 (vz (vx M)) (vz (vy M)) (vz (vz M))).

(** Sums. *)
Definition rsum (l : list R) : R := fold_right Rplus 0 l.
Definition vsum (l : list (v3 R)) : v3 R := fold_right vadd vzero l.

Section SpecR.
  Variable c : ctx R.

  (** Position of a node under the displacement field [U]. *)
  Definition place (U : list (v3 R)) (l : Z) : v3 R :=
    vadd (row_of (c_labels c) (c_coords c) vzero l) (row_of (c_labels c) U vzero l).

  (** Vector from the begin to the end node of a member. *)
  Definition axis (U : list (v3 R)) (m : member R) : v3 R :=
    vsub (place U (mb_b m)) (place U (mb_a m)).

  (** The same in the undeformed configuration. *)
  Definition axis0 (m : member R) : v3 R :=
    vsub (row_of (c_labels c) (c_coords c) vzero (mb_b m))
         (row_of (c_labels c) (c_coords c) vzero (mb_a m)).

  Definition stretch_of (U : list (v3 R)) (m : member R) : R := len (axis U m) / len (axis0 m).
  Definition direction (U : list (v3 R)) (m : member R) : v3 R := vscale (/ len (axis U m)) (axis U m).

  (** Force exerted by node [l] on member [m] carrying the normal force [N]:
      +N n at its end node, -N n at its begin node. *)
  Definition pull (U : list (v3 R)) (l : Z) (mN : member R * R) : v3 R :=
    if Z.eqb l (mb_b (fst mN)) then vscale (snd mN) (direction U (fst mN))
    else if Z.eqb l (mb_a (fst mN)) then vneg (vscale (snd mN) (direction U (fst mN)))
    else vzero.
End SpecR.

(** The stress of the law [u] is differentiable at the strain [e]: always for
    the elastic law; for the plastic one with 0 < E, 0 <= K and a positive yield
    stress when the trial stress is not exactly on the yield limit. *)
Definition smooth_at (u : umat_id) (mat : list R) (row : option (list R)) (e : R) : Prop :=
  match u, mat, row with
  | UmatEl, _, _ => True
  | UmatPl, E :: K :: Sy :: _, Some (y :: p :: _) =>
      0 < E /\ 0 <= K /\ 0 < yield_before Sy y /\ Rabs (E * (e - p)) <> yield_before Sy y
  | UmatPl, _, _ => False
  end.

(** Nodal load tables of the right size (three components per node). *)
Definition loads_ok (c : ctx R) (an : analysis R) : Prop :=
  length (concat (a_fconst an)) = (3 * length (c_labels c))%nat /\
  length (concat (a_forces an)) = (3 * length (c_labels c))%nat.

(** No member has length zero, undeformed or under [U], and every material is
    at a point where its stress is differentiable. *)
Definition regular (c : ctx R) (ms : list (member R)) (an : analysis R) (U : list (v3 R)) : Prop :=
  forall k m, nth_error ms k = Some m ->
    len (axis0 c m) <> 0 /\ len (axis c U m) <> 0 /\
    smooth_at (mb_law m) (mb_mat m) (state_row c an k) (stretch_of c U m - 1).

(** The array returned by an evaluation (empty if it raised). *)
Definition value {A} (r : res (analysis R * list A)) : list A :=
  match r with Ok (_, g) => g | _ => [] end.

(** Rotations and reflections: maps that keep scalar products. *)
Definition orthogonal (Q : m3 R) : Prop := forall v w, vdot (mvec Q v) (mvec Q w) = vdot v w.

(** The 3x3 block of the assembled stiffness belonging to two node labels. *)
Definition K_block (c : ctx R) (K : list (list (m3 R))) (l l' : Z) : m3 R :=
  row_of (c_labels c) (row_of (c_labels c) K [] l) mzero l'.

(** Two models with the same nodes and the same number of active DOFs. *)
Definition same_nodes (c c' : ctx R) : Prop :=
  c_labels c' = c_labels c /\ c_coords c' = c_coords c /\ c_ndof1 c' = c_ndof1 c.

(** Two analysis objects with the same displacements, active DOFs and loads. *)
Definition same_state (an an' : analysis R) : Prop :=
  a_U an' = a_U an /\ a_U0 an' = a_U0 an /\ a_DOF1 an' = a_DOF1 an /\
  concat (a_fconst an') = concat (a_fconst an) /\ concat (a_forces an') = concat (a_forces an).

(** Enough property values (and state variables) for the law of each member. *)
Definition props_ok (c : ctx R) (ms : list (member R)) (an : analysis R) : Prop :=
  forall k m, nth_error ms k = Some m ->
    mb_geo m <> [] /\
    match mb_law m with
    | UmatEl => mb_mat m <> []
    | UmatPl => (3 <= length (mb_mat m))%nat /\ exists y p r, state_row c an k = Some (y :: p :: r)
    end.
