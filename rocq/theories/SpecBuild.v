(** * Vocabulary for the properties of the node, support and load tables

    A table is written as the list of (label, row) pairs the user supplied. *)
From Coq Require Import List ZArith Bool Arith Permutation Sorting.Sorted.
Import ListNotations.
From Verif Require Import Num Vec Handlers.

(** [np.argsort] of an int array: some permutation of the positions along which
    the labels are in increasing order. *)
Definition argsort_ok (argsort : list Z -> list nat) : Prop :=
  forall l, Permutation (argsort l) (seq 0 (length l)) /\
            StronglySorted Z.le (map (fun i => nth i l 0%Z) (argsort l)).

Section Tables.
  Context {F : Type} `{NF : Num F}.

  (** The handler holds exactly these rows, in this order. *)
  Definition nodes_are (h : option (nodeH F)) (ns : list (Z * v3 F)) : Prop :=
    match h with
    | None => ns = []
    | Some h => n_labels h = map fst ns /\ n_coords h = map snd ns
    end.

  Definition bounds_are (h : option boundH) (bs : list (Z * list Z)) : Prop :=
    match h with
    | None => bs = []
    | Some h => b_nodes h = map fst bs /\
                match b_vals h with
                | UFlat l => exists n, bs = [(n, l)]
                | UMat w rows => rows = map snd bs /\ Forall (fun r => length r = w) rows
                end
    end.

  Definition forces_are (h : option (forceH F)) (fs : list (Z * list F)) : Prop :=
    match h with
    | None => fs = []
    | Some h => e_nodes h = map fst fs /\ e_rows h = map snd fs /\
                Forall (fun r => length r = e_width h) (e_rows h)
    end.

  (** One row per node at most, and only for existing nodes. *)
  Definition matches {A B} (ns : list (Z * A)) (rows : list (Z * B)) : Prop :=
    NoDup (map fst rows) /\ incl (map fst rows) (map fst ns).

  (** The row given for a label, [d] if there is none. *)
  Fixpoint row_for {A} (rows : list (Z * A)) (d : A) (l : Z) : A :=
    match rows with
    | [] => d
    | (a, v) :: rows => if Z.eqb l a then v else row_for rows d l
    end.

  (** The rows for all labels, in the order of the labels. *)
  Definition rows_for {A} (rows : list (Z * A)) (d : A) (labels : list Z) : list (Z * A) :=
    map (fun l => (l, row_for rows d l)) labels.

  (** A user's history on one table, and the rows it leaves behind: adding
      appends a row, deleting removes all rows with the label. *)
  Inductive edit (A : Type) := Add (l : Z) (v : A) | Del (l : Z).
  Arguments Add {A} l v.
  Arguments Del {A} l.

  Definition edited {A} (rows : list (Z * A)) (e : edit A) : list (Z * A) :=
    match e with
    | Add l v => rows ++ [(l, v)]
    | Del l => filter (fun p => negb (Z.eqb l (fst p))) rows
    end.

  Definition node_edit (h : option (nodeH F)) (e : edit (v3 F)) : res (option (nodeH F)) :=
    match e with Add l v => Ok (add_node h l v) | Del l => del_node h l end.
  Definition bound_edit (h : option boundH) (e : edit (list Z)) : res (option boundH) :=
    match e with Add l v => add_bound_U h l v | Del l => del_bound_U h l end.
  Definition force_edit (h : option (forceH F)) (e : edit (list F)) : res (option (forceH F)) :=
    match e with Add l v => add_force h l v | Del l => del_force h l end.
End Tables.
Arguments Add {A} l v.
Arguments Del {A} l.
