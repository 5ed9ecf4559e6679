(** * Vocabulary: loads on supported components *)
From Coq Require Import List ZArith Bool Arith.
Import ListNotations.
From Verif Require Import Num Vec Handlers Material Analysis Truss Equil Solver Run SpecMech SpecBuild SpecRun SpecSame.

Section Spec.
  Context {F : Type} `{NF : Num F}.

  (** Component [q] (0, 1, 2 for x, y, z) of node [l] is free, for the support rows
      [bs]: its flag is 1; a node without a row is free. *)
  Definition free_component (bs : list (Z * list Z)) (l : Z) (q : nat) : Prop :=
    nth q (row_for bs [1; 1; 1]%Z l) 0%Z = 1%Z.

  (** The load rows [fs] and [fs'], of width [w] (three columns per step), give every
      free component the same load in every step.  A node without a row has no load. *)
  Definition same_on_free (w : nat) (ns : list (Z * v3 F)) (bs : list (Z * list Z)) (fs fs' : list (Z * list F)) : Prop :=
    forall l q s, In l (map fst ns) -> (q < 3)%nat -> free_component bs l q ->
      nth (3 * s + q) (row_for fs' (repeat f0 w) l) f0 = nth (3 * s + q) (row_for fs (repeat f0 w) l) f0.

  (** The load table has three columns for every step of the settings. *)
  Definition enough_columns (w : nat) (st : settings F) : Prop := (3 * Z.to_nat (s_nsteps st) <= w)%nat.
  Definition enough_for (w : nat) (act : @action F) : Prop :=
    match act with ARun _ => True | ASet st => enough_columns w st end.

  (** Two results with everything in common but the loads, and the residual at
      components that are not free unknowns. *)
  Definition same_but_loads (a a' : analysis F) : Prop :=
    a_step a' = a_step a /\ a_U a' = a_U a /\ a_U0 a' = a_U0 a /\ a_r a' = a_r a /\ a_K a' = a_K a /\
    a_stretch a' = a_stretch a /\ a_force a' = a_force a /\ a_stress a' = a_stress a /\
    a_DOF0 a' = a_DOF0 a /\ a_DOF1 a' = a_DOF1 a /\ a_Ured a' = a_Ured a /\ a_Vred a' = a_Vred a /\
    a_lpf a' = a_lpf a /\ a_state a' = a_state a /\ a_dVmax a' = a_dVmax a /\ a_j a' = a_j a /\
    a_Kred a' = a_Kred a /\ a_Kmod a' = a_Kmod a /\ a_f0red a' = a_f0red a /\
    (forall p, In p (a_DOF1 a) -> nth_error (a_g a') p = nth_error (a_g a) p).
End Spec.
