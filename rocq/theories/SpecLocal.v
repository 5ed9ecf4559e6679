(** * Vocabulary: what a node and a pair of nodes have to do with

    Two trusses are compared around a node: the bars that end there. *)
From Coq Require Import List ZArith Bool Arith.
Import ListNotations.
From Verif Require Import Num Vec Handlers Material Analysis Truss Equil SpecMech.

Section Spec.
  Context {F : Type} `{NF : Num F}.

  (** The bar [m] ends at node [l]. *)
  Definition ends_at (l : Z) (m : member F) : bool := Z.eqb l (mb_a m) || Z.eqb l (mb_b m).

  (** The bars of the list that end both at [l] and at [l'], with their state
      variables, in the order of the list.  With [l = l']: the bars at node [l]. *)
  Definition bars_between (c : ctx F) (an : analysis F) (l l' : Z) (ms : list (member F)) :
    list (member F * option (list F)) :=
    filter (fun b => ends_at l (fst b) && ends_at l' (fst b))
      (combine ms (map (state_row c an) (seq 0 (length ms)))).

  (** Coordinates, displacements and previous displacements of the node [l] agree. *)
  Definition same_node (c c' : ctx F) (an an' : analysis F) (l : Z) : Prop :=
    row_of (c_labels c') (c_coords c') vzero l = row_of (c_labels c) (c_coords c) vzero l /\
    row_of (c_labels c') (a_U an') vzero l = row_of (c_labels c) (a_U an) vzero l /\
    row_of (c_labels c') (a_U0 an') vzero l = row_of (c_labels c) (a_U0 an) vzero l.

  (** Bars [b] and [b'] agree, apart from their label, in their end nodes, material
      law, material and geometry data and state variables, and so do their end nodes. *)
  Definition same_bar (c c' : ctx F) (an an' : analysis F) (b b' : member F * option (list F)) : Prop :=
    mb_a (fst b') = mb_a (fst b) /\ mb_b (fst b') = mb_b (fst b) /\ mb_law (fst b') = mb_law (fst b) /\
    mb_mat (fst b') = mb_mat (fst b) /\ mb_geo (fst b') = mb_geo (fst b) /\ snd b' = snd b /\
    same_node c c' an an' (mb_a (fst b)) /\ same_node c c' an an' (mb_b (fst b)).

  (** The 3x3 block of the stiffness matrix that belongs to the nodes [l] and [l']. *)
  Definition block_of (c : ctx F) (K : list (list (m3 F))) (l l' : Z) : m3 F :=
    row_of (c_labels c) (row_of (c_labels c) K [] l) mzero l'.
End Spec.
