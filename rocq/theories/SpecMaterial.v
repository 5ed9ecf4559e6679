(** * Vocabulary for the material properties (R) *)
From Coq Require Import List Reals.
Import ListNotations.
From Verif Require Import Num NumR Material.
Local Open Scope R_scope.

(** Output of one evaluation of material type 2: stress, stored yield stress,
    plastic strain. *)
Notation mat_state := (R * R * R)%type.
Definition m_stress (o : mat_state) : R := fst (fst o).
Definition m_yield (o : mat_state) : R := snd (fst o).
Definition m_epl (o : mat_state) : R := snd o.

(** State before the first evaluation: everything zero (Analysis.build). *)
Definition mat_zero : mat_state := (0, 0, 0).

(** [mat_run mat h outs]: feeding the strain history [h] to material type 2,
    starting from zero state and passing the returned state on, yields the
    outputs [outs] (in order).  The strain increment argument is arbitrary. *)
Inductive mat_run (mat : list R) : list R -> list mat_state -> Prop :=
| mat_run_nil : mat_run mat [] []
| mat_run_snoc : forall h outs e de s t y p,
    mat_run mat h outs ->
    umat_elplast_iso e de mat
      (Some [m_yield (last outs mat_zero); m_epl (last outs mat_zero)])
      = Ok (s, t, Some [y; p]) ->
    mat_run mat (h ++ [e]) (outs ++ [(s, y, p)]).

(** Accumulated absolute plastic strain increments, starting from plastic
    strain [p0]. *)
Fixpoint accumulated (p0 : R) (outs : list mat_state) : R :=
  match outs with
  | [] => 0
  | o :: outs' => Rabs (m_epl o - p0) + accumulated (m_epl o) outs'
  end.

(** Yield stress in force before an evaluation: the initial one if nothing was
    stored yet. *)
Definition yield_before (Sy y : R) : R := if Req_EM_T y 0 then Sy else y.

(** Plastic work of a history: stress times movement of the plastic strain, summed. *)
Fixpoint plastic_work (p0 : R) (outs : list mat_state) : R :=
  match outs with
  | [] => 0
  | o :: outs' => m_stress o * (m_epl o - p0) + plastic_work (m_epl o) outs'
  end.

(** Work done on the material: mean of the old and new stress times the strain
    increment, summed; from strain [e0] and stress [s0]. *)
Fixpoint strain_work (e0 s0 : R) (h : list R) (outs : list mat_state) : R :=
  match h, outs with
  | e :: h', o :: outs' => (s0 + m_stress o) / 2 * (e - e0) + strain_work e (m_stress o) h' outs'
  | _, _ => 0
  end.
