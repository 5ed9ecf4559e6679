(** * Vocabulary for trusses with loads on their supports only *)
From Coq Require Import List ZArith Bool Arith Reals.
Import ListNotations.
From Verif Require Import Num NumR Vec Handlers Material Analysis Truss Equil Solver Run SpecBuild SpecSame SpecUnloaded SpecSupportLoad.
Local Open Scope R_scope.

(** No free component has a load in any step. *)
Definition free_of_load (w : nat) (ns : list (Z * v3 R)) (bs : list (Z * list Z)) (fs : list (Z * list R)) : Prop :=
  forall l q s, In l (map fst ns) -> (q < 3)%nat -> free_component bs l q -> nth (3 * s + q) (row_for fs (repeat 0 w) l) 0 = 0.

(** A change of settings that keeps load control. *)
Definition in_load_control (n w : nat) (act : @action R) : Prop :=
  match act with ARun _ => True | ASet st => load_control n w st end.
