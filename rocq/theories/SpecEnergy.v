(** * Vocabulary for the energy properties, exact arithmetic *)
From Coq Require Import List ZArith Bool Arith Reals.
Import ListNotations.
From Verif Require Import Num NumR Vec Handlers Material Analysis Truss Equil SpecMaterial SpecMech SpecMechR.
Local Open Scope R_scope.

(** Energy per volume spent when the plastic strain moves by [d] from [p], with
    yield stress [Y], while the strain goes to [e]: elastic energy, dissipation
    and hardening. *)
Definition plastic_energy (E K Y p e d : R) : R :=
  E / 2 * (e - p - d) ^ 2 + Y * Rabs d + K / 2 * d ^ 2.

(** Energy per volume as a function of the strain: E e^2 / 2 for the elastic law;
    for the plastic one the least [plastic_energy] over all [d] (C50_least). *)
Definition density (u : umat_id) (mat : list R) (row : option (list R)) (e : R) : R :=
  match u, mat, row with
  | UmatEl, E :: _, _ => E / 2 * e ^ 2
  | UmatPl, E :: K :: Sy :: _, Some (y :: p :: _) =>
      E / 2 * (e - p) ^ 2 - (Rmax 0 (Rabs (E * (e - p)) - yield_before Sy y)) ^ 2 / (2 * (E + K))
  | _, _, _ => 0
  end.

(** Positive E and yield stress and no softening for plastic members; no member
    of length zero, undeformed or under [U]. *)
Definition sound (c : ctx R) (ms : list (member R)) (an : analysis R) (U : list (v3 R)) : Prop :=
  forall k m, nth_error ms k = Some m ->
    len (axis0 c m) <> 0 /\ len (axis c U m) <> 0 /\
    match mb_law m, mb_mat m, state_row c an k with
    | UmatPl, E :: K :: Sy :: _, Some (y :: _) => 0 < E /\ 0 <= K /\ 0 < yield_before Sy y
    | _, _, _ => True
    end.

(** Energy of all members: area times undeformed length times density. *)
Definition strain_energy (c : ctx R) (ms : list (member R)) (an : analysis R) (U : list (v3 R)) : R :=
  rsum (map (fun km => let m := snd km in
               nth 0 (mb_geo m) 0 * len (axis0 c m) *
               density (mb_law m) (mb_mat m) (state_row c an (fst km)) (stretch_of c U m - 1))
            (combine (seq 0 (length ms)) ms)).

(** Work of nodal loads (one number per component) on the displacements [U]. *)
Definition load_work (f : list R) (U : list (v3 R)) : R := rsum (map2 Rmult f (vflat U)).

(** Potential energy under the constant loads and [lam] times the other loads. *)
Definition potential (c : ctx R) (ms : list (member R)) (an : analysis R) (lam : R) (U : list (v3 R)) : R :=
  strain_energy c ms an U - (load_work (concat (a_fconst an)) U + lam * load_work (concat (a_forces an)) U).

(** The displacements after an evaluation (empty if it raised). *)
Definition displaced {A} (r : res (analysis R * A)) : list (v3 R) :=
  match r with Ok (an, _) => a_U an | _ => [] end.
