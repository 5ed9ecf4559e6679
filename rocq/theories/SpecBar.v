(** * Vocabulary for the single bar *)
From Coq Require Import List ZArith Bool Arith Reals.
Import ListNotations.
From Verif Require Import Num NumR Vec Handlers Material Analysis Truss Equil Solver Run SpecMech SpecMechR.
Local Open Scope R_scope.

(** Vector of length [v] in coordinate direction [i]. *)
Definition along_axis (i : nat) (v : R) : v3 R :=
  match i with O => V3 v 0 0 | S O => V3 0 v 0 | _ => V3 0 0 v end.

(** One elastic bar in direction [i] of length [L], modulus [E], area [A], from
    node [na] to node [nb]; only component [i] of node [nb] is free. *)
Definition is_bar (c : ctx R) (ms : list (member R)) (i : nat) (L E A : R) : Prop :=
  exists lb na nb p mat geo,
    truss_ok c ms /\ c_labels c = [na; nb] /\ c_coords c = [p; vadd p (along_axis i L)] /\
    ms = [Mb lb na nb UmatEl (E :: mat) (A :: geo)] /\ c_ndof1 c = 1%nat.

(** An analysis object of the bar: reference load [F] and constant load [fc] at
    the free component, and no other displacement than that of the free
    component. *)
Definition bar_state (c : ctx R) (ms : list (member R)) (i : nat) (F fc : R) (an : analysis R) : Prop :=
  sizes_ok c ms an /\ loads_ok c an /\ a_DOF1 an = [(3 + i)%nat] /\ a_f0red an = [F] /\
  nth (3 + i) (concat (a_forces an)) 0 = F /\ nth (3 + i) (concat (a_fconst an)) 0 = fc /\
  exists u, a_U an = [vzero; along_axis i u].

(** The solver is exact for regular 2x2 systems. *)
Definition exact2 (solve : list (list R) -> list R -> list R) : Prop :=
  forall a b c d r s, a * d - b * c <> 0 ->
  exists x y, solve [[a; b]; [c; d]] [r; s] = [x; y] /\ a * x + b * y = r /\ c * x + d * y = s.

(** The two nodes at displacement [u] of the free one: normal force and internal
    force at the free component are both stiffness [k] times [u]. *)
Definition bar_at (i : nat) (k u : R) (an : analysis R) : Prop :=
  a_U an = [vzero; along_axis i u] /\ a_force an = [k * u] /\ nth (3 + i) (vflat (a_r an)) 0 = k * u.

(** Component [j] of the pair (u, lam), 1-based with a sign. *)
Definition comp (j : Z) (u lam : R) : R := if (Z.abs j =? 1)%Z then u else lam.

(** The point of the line [k u = fc + lam F] at which component [j] is [t]. *)
Definition point (k fc F : R) (j : Z) (t : R) : R * R :=
  if (Z.abs j =? 1)%Z then (t, (k * t - fc) / F) else ((fc + t * F) / k, t).

(** [np.argsort] of two values. *)
Definition sorts_pairs (argsort : list R -> list nat) : Prop :=
  forall a b, argsort [a; b] = [0; 1]%nat \/ argsort [a; b] = [1; 0]%nat.

(** The bar as the user describes it: node 1 at [p] held, node 2 at distance [L]
    in direction [i], free in this direction and loaded by [F]. *)
Definition bar_model (i : nat) (p : v3 R) (L E A F : R) (st : settings R) : model R :=
  Model (Some (NodeH [1; 2]%Z [p; vadd p (along_axis i L)]))
    (Some (ElemH [1]%Z [(1, 2)]%Z [1]%Z [1]%Z (Tab false 1 [[E]]) (Tab false 1 [[A]])))
    (Some (BoundH [1; 2]%Z (UMat 3 [[0; 0; 0]; set_nth i 1 [0; 0; 0]]%Z)))
    (Some (ForceH [2]%Z 3 [set_nth i F [0; 0; 0]])) st None.
