(** * Vocabulary for the properties of the element table *)
From Coq Require Import List ZArith Bool Arith.
Import ListNotations.
From Verif Require Import Num Handlers.

Section Elem.
  Context {F : Type} `{NF : Num F}.

  (** All arrays of the handler have one entry per element. *)
  Definition arrays_ok (h : elemH F) : Prop :=
    let n := length (el_labels h) in
    length (el_conns h) = n /\ length (el_etype h) = n /\ length (el_mtype h) = n /\
    length (t_rows (el_mat h)) = n /\ length (t_rows (el_geo h)) = n /\
    Forall (fun r => length r = t_width (el_mat h)) (t_rows (el_mat h)) /\
    Forall (fun r => length r = t_width (el_geo h)) (t_rows (el_geo h)).

  (** A number given by the user, after storage in an int or float array. *)
  Definition as_stored (int : bool) (p : pynum F) : F :=
    match p with PI z => fofZ z | PF x => if int then ftrunc x else x end.

  (** The labels a call names: those listed, or those of all elements. *)
  Definition named (labels : labarg) (h : elemH F) : list Z :=
    match labels with Labs l => l | All => el_labels h end.

  (** A row followed by zeros, up to width [w]. *)
  Definition pad (w : nat) (r : list F) : list F := r ++ repeat f0 (w - length r).

  (** The calls a user can make on the element handler. *)
  Inductive elem_op :=
  | OAdd (E : element F)
  | ODel (l : Z)
  | OMat (labels : labarg) (mprop : list (pynum F)) (mtype : option Z)
  | OGeo (labels : labarg) (gprop : list (pynum F))
  | OGeos (labels : labarg) (gprops : list (list (pynum F)))
  | OEtype (labels : labarg) (t : Z)
  | OMtype (labels : labarg) (t : Z).

  Definition elem_call (h : option (elemH F)) (o : elem_op) : res (option (elemH F)) :=
    match o with
    | OAdd E => add_element h E
    | ODel l => del_element h l
    | OMat ls p t => assign_material h ls p t
    | OGeo ls p => assign_geometry h ls p
    | OGeos ls ps => assign_geometries h ls ps
    | OEtype ls t => assign_etype h ls t
    | OMtype ls t => assign_mtype h ls t
    end.

  (** The elements added in a history. *)
  Definition added (os : list elem_op) : list (element F) :=
    flat_map (fun o => match o with OAdd E => [E] | _ => [] end) os.

  (** All numbers in the row are Python ints (an empty row counts as float). *)
  Definition int_row (r : list (pynum F)) : Prop := r <> [] /\ forall p, In p r -> exists z, p = PI z.
End Elem.
Arguments elem_op : clear implicits.
