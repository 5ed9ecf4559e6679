(** * Vocabulary for the mechanics properties

    A truss as an engineer would write it down: a list of members, each with a
    begin and an end node, a material law, a property row and a geometry row,
    and nodal vectors looked up by node label. *)
From Coq Require Import List ZArith Bool Arith.
Import ListNotations.
From Verif Require Import Num Vec Handlers Material Analysis Truss Equil.

Section Spec.
  Context {F : Type} `{NF : Num F}.

  Record member := Mb {
    mb_label : Z;
    mb_a : Z;                 (* begin node *)
    mb_b : Z;                 (* end node *)
    mb_law : umat_id;
    mb_mat : list F;
    mb_geo : list F
  }.

  Definition law_code (u : umat_id) : Z := match u with UmatEl => 1 | UmatPl => 2 end.

  (** The element table [h] lists exactly the members [ms], in order. *)
  Definition lists_members (h : elemH F) (ms : list member) : Prop :=
    el_labels h = map mb_label ms /\
    el_conns h = map (fun m => (mb_a m, mb_b m)) ms /\
    el_mtype h = map (fun m => law_code (mb_law m)) ms /\
    t_rows (el_mat h) = map mb_mat ms /\
    t_rows (el_geo h) = map mb_geo ms.

  (** The row of [arr] that stands at the position of label [l]. *)
  Fixpoint row_of {A} (labels : list Z) (arr : list A) (d : A) (l : Z) : A :=
    match labels, arr with
    | a :: ls, x :: xs => if Z.eqb l a then x else row_of ls xs d l
    | _, _ => d
    end.

  (** A truss: distinct node labels with one coordinate row each, distinct
      element labels, every member joins two different existing nodes. *)
  Definition truss_ok (c : ctx F) (ms : list member) : Prop :=
    NoDup (c_labels c) /\ length (c_coords c) = length (c_labels c) /\
    lists_members (c_elems c) ms /\ NoDup (map mb_label ms) /\
    (forall m, In m ms -> In (mb_a m) (c_labels c) /\ In (mb_b m) (c_labels c) /\ mb_a m <> mb_b m).

  (** Array sizes of the analysis object belonging to such a truss. *)
  Definition sizes_ok (c : ctx F) (ms : list member) (an : analysis F) : Prop :=
    length (a_U an) = length (c_labels c) /\ length (a_U0 an) = length (c_labels c) /\
    length (a_r an) = length (c_labels c) /\
    length (a_K an) = length (c_labels c) /\
    (forall row, In row (a_K an) -> length row = length (c_labels c)) /\
    length (a_stretch an) = length ms /\ length (a_stress an) = length ms /\
    length (a_force an) = length ms /\
    NoDup (a_DOF1 an) /\ (forall k, In k (a_DOF1 an) -> (k < 3 * length (c_labels c))%nat) /\
    c_ndof1 c = length (a_DOF1 an) /\
    ((0 < c_nstatev c)%Z -> exists sv, a_state an = Some sv /\ length sv = length ms).

  (** State row of the [k]-th member ([None] if the model has no state variables). *)
  Definition state_row (c : ctx F) (an : analysis F) (k : nat) : option (list F) :=
    if (0 <? c_nstatev c)%Z then
      match a_state an with Some sv => nth_error sv k | None => None end
    else None.
End Spec.
Arguments member : clear implicits.
