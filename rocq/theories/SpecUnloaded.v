(** * Vocabulary for trusses without loads *)
From Coq Require Import List ZArith Bool Arith Reals.
Import ListNotations.
From Verif Require Import Num NumR Vec Handlers Material Analysis Truss Equil Solver Run.
Local Open Scope R_scope.

(** The load factor, the last of [n] components, is locked as control component, and
    the load table of width [w] has three columns for every step; all other settings
    are arbitrary. *)
Definition load_control (n w : nat) (st : settings R) : Prop :=
  s_jfixed st = true /\ (exists j, s_j0 st = Some j /\ Z.abs j = Z.of_nat n) /\ (3 * Z.to_nat (s_nsteps st) <= w)%nat.

(** No load: every given component is zero. *)
Definition no_loads (fs : list (Z * list R)) : Prop := forall l r, In (l, r) fs -> forall v, In v r -> v = 0.

(** A result without displacements, stresses, member forces and forces of the members
    on the nodes, for [n] nodes and [k] members. *)
Definition at_ease (n k : nat) (a : analysis R) : Prop :=
  length (a_U a) = n /\ (forall v, In v (a_U a) -> v = V3 0 0 0) /\
  length (a_force a) = k /\ (forall f, In f (a_force a) -> f = 0) /\
  length (a_stress a) = k /\ (forall s, In s (a_stress a) -> s = 0) /\
  length (a_r a) = n /\ (forall v, In v (a_r a) -> v = V3 0 0 0).
