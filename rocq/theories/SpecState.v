(** * Vocabulary for the properties of the analysis object *)
From Coq Require Import List ZArith Bool Arith.
Import ListNotations.
From Verif Require Import Num Vec Handlers Material Analysis Truss Equil Solver Run SpecMech.

(** The material type that decides: the nearest preceding known one. *)
Definition known_type (t : Z) : bool := ((t =? 1) || (t =? 2))%Z.

Fixpoint effective (prev : Z) (types : list Z) : list Z :=
  match types with
  | [] => []
  | t :: ts => let e := if known_type t then t else prev in e :: effective e ts
  end.

Section Spec.
  Context {F : Type} `{NF : Num F}.

  (** Same step number, DOF lists and load vectors; both displacement fields have
      the same components outside the active DOFs. *)
  Definition same_setup (a a' : analysis F) : Prop :=
    a_step a' = a_step a /\ a_DOF0 a' = a_DOF0 a /\ a_DOF1 a' = a_DOF1 a /\
    a_f0red a' = a_f0red a /\ a_fconst a' = a_fconst a /\ a_forces a' = a_forces a /\
    length (a_U a') = length (a_U a) /\ length (a_U0 a') = length (a_U0 a) /\
    (forall k, ~ In k (a_DOF1 a) -> nth_error (vflat (a_U a')) k = nth_error (vflat (a_U a)) k) /\
    (forall k, ~ In k (a_DOF1 a) -> nth_error (vflat (a_U0 a')) k = nth_error (vflat (a_U0 a)) k).

  (** Row [k] of the state table was replaced by what the law of the [k]-th member
      returned for its old row and the stretch recorded with it. *)
  Definition state_updated (ms : list (member F)) (a0 a : analysis F) : Prop :=
    exists sv sv', a_state a0 = Some sv /\ a_state a = Some sv' /\ length sv' = length ms /\
      forall k m, nth_error ms k = Some m ->
        exists row row' lam stress dsde,
          nth_error sv k = Some row /\ nth_error sv' k = Some row' /\
          nth_error (a_stretch a) k = Some lam /\ nth_error (a_stress a) k = Some stress /\
          forall de, umat (mb_law m) (fsub lam f1) de (mb_mat m) (Some row) = Ok (stress, dsde, Some row').

  (** The same element table, evaluation context and model with another list of
      material types. *)
  Definition retype (ts : list Z) (h : elemH F) : elemH F :=
    ElemH (el_labels h) (el_conns h) (el_etype h) ts (el_mat h) (el_geo h).
  Definition with_types (ts : list Z) (c : ctx F) : ctx F :=
    Ctx (c_labels c) (c_coords c) (retype ts (c_elems c)) (c_nnodes c) (c_ndof1 c) (c_nstatev c).
  Definition model_types (ts : list Z) (m : model F) : model F :=
    Model (m_nodes m) (option_map (retype ts) (m_elems m)) (m_bounds m) (m_forces m) (m_set m) (m_built m).

End Spec.
