(** * Vocabulary for the properties of run over the real numbers *)
From Coq Require Import List ZArith Bool Arith Reals.
Import ListNotations.
From Verif Require Import Num NumR Vec Handlers Material Analysis Truss Equil SpecMech SpecMechR.
Local Open Scope R_scope.

(** Sum over components. *)
Definition sum_over (l : list nat) (f : nat -> R) : R := fold_right (fun k s => f k + s) 0 l.

(** The Euclidean norm of the residual over the active DOFs is below [ftol], and the control
    component recorded in [a] moved from [x0] to [x] by its step limit in the
    direction of its sign, up to [ftol]. *)
Definition balanced (ftol : R) (x0 x : list R) (a : analysis R) : Prop :=
  Forall (fun p => (p < length (a_g a))%nat) (a_DOF1 a) /\
  sqrt (sum_over (a_DOF1 a) (fun p => nth p (a_g a) 0 * nth p (a_g a) 0)) < ftol /\
  exists dj xj x0j,
    py_get (a_dVmax a) (Z.abs (a_j a) - 1) = Ok dj /\
    py_get x (Z.abs (a_j a) - 1) = Ok xj /\ py_get x0 (Z.abs (a_j a) - 1) = Ok x0j /\
    Rabs (xj - (x0j + dj * IZR (Z.sgn (a_j a)))) < ftol.

(** External force and support reaction in component [k] of a result. *)
Definition external (a : analysis R) (k : nat) : R :=
  nth k (concat (a_fconst a)) 0 + a_lpf a * nth k (concat (a_forces a)) 0.
Definition reaction (a : analysis R) (k : nat) : R :=
  nth k (vflat (a_r a)) 0 - external a k.

(** The components of direction [d]. *)
Definition in_direction (d : nat) (l : list nat) : list nat := filter (fun k => Nat.eqb (k mod 3) d) l.

(** The result [a], recorded after [a0], is consistent in itself: every member's
    stretch is that of the recorded displacements, its stress is what its law
    gives for this stretch and the state variables of [a0], its force is area
    times stress, and the internal force at every node is the sum of the member
    forces pulling at it. *)
Definition self_consistent (c : ctx R) (ms : list (member R)) (a0 a : analysis R) : Prop :=
  (forall k m, nth_error ms k = Some m ->
     exists s t st A,
       (forall de, umat (mb_law m) (stretch_of c (a_U a) m - 1) de (mb_mat m) (state_row c a0 k) = Ok (s, t, st)) /\
       nth_error (mb_geo m) 0 = Some A /\
       nth_error (a_stretch a) k = Some (stretch_of c (a_U a) m) /\
       nth_error (a_stress a) k = Some s /\
       nth_error (a_force a) k = Some (A * s)) /\
  (forall l, In l (c_labels c) ->
     row_of (c_labels c) (a_r a) vzero l = vsum (map (pull c (a_U a) l) (combine ms (a_force a)))).
