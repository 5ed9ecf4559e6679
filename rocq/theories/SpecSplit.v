(** * Vocabulary: a bar replaced by several bars side by side *)
From Coq Require Import List ZArith Bool Arith Reals.
Import ListNotations.
From Verif Require Import Num NumR Vec Handlers Material Analysis Truss Equil Solver Run SpecMech SpecMechR SpecSame.
Local Open Scope R_scope.

(** Cross section of a bar: the first geometric property. *)
Definition area (b : member R) : R := nth 0 (mb_geo b) 0.

(** Bars between the same nodes, of the same material. *)
Definition side_by_side (b b' : member R) : Prop :=
  mb_a b' = mb_a b /\ mb_b b' = mb_b b /\ mb_law b' = mb_law b /\ mb_mat b' = mb_mat b /\
  mb_geo b <> [] /\ mb_geo b' <> [].

(** Sum of those [xs] whose entry in [own] is [i]. *)
Definition total (own : list nat) (xs : list R) (i : nat) : R :=
  rsum (map snd (filter (fun p => Nat.eqb (fst p) i) (combine own xs))).

(** Bar number [k] of [ms'] is a part of bar number [own k] of [ms]; every bar of
    [ms] has parts, and their cross sections add up to its own.  The parts of a bar
    may stand anywhere in the list; some may have cross section zero. *)
Definition split_by (own : list nat) (ms ms' : list (member R)) : Prop :=
  Forall2 (fun i b' => exists b, nth_error ms i = Some b /\ side_by_side b b') own ms' /\
  (forall i b, nth_error ms i = Some b -> In i own /\ area b = total own (map area ms') i).

(** Result [a'] of the split truss against result [a]: everything that belongs to
    nodes or to the load is the same; a part has the stretch, the stress and the state
    variables of the bar it belongs to, and carries its cross section times the
    stress; the forces of the parts of a bar add up to the force of the bar. *)
Definition split_result (own : list nat) (ms' : list (member R)) (a a' : analysis R) : Prop :=
  a_step a' = a_step a /\ a_U a' = a_U a /\ a_U0 a' = a_U0 a /\ a_r a' = a_r a /\
  a_g a' = a_g a /\ a_K a' = a_K a /\ a_DOF0 a' = a_DOF0 a /\ a_DOF1 a' = a_DOF1 a /\
  a_Ured a' = a_Ured a /\ a_Vred a' = a_Vred a /\ a_lpf a' = a_lpf a /\
  a_dVmax a' = a_dVmax a /\ a_j a' = a_j a /\ a_Kred a' = a_Kred a /\ a_Kmod a' = a_Kmod a /\
  a_f0red a' = a_f0red a /\ a_fconst a' = a_fconst a /\ a_forces a' = a_forces a /\
  picks own (a_stretch a) (a_stretch a') /\ picks own (a_stress a) (a_stress a') /\
  match a_state a, a_state a' with
  | Some sv, Some sv' => picks own sv sv'
  | None, None => True
  | _, _ => False
  end /\
  a_force a' = map2 Rmult (map area ms') (a_stress a') /\
  (forall i N, nth_error (a_force a) i = Some N -> N = total own (a_force a') i).

Definition split_results (own : list nat) (ms' : list (member R)) (m m' : model R) : Prop :=
  exists u u', m_built m = Some u /\ m_built m' = Some u' /\
    Forall2 (split_result own ms') (u_R u) (u_R u') /\ u_lpf_end u' = u_lpf_end u /\
    split_result own ms' (u_an u) (u_an u').

(** The two models have the same nodes, supports, loads and settings. *)
Definition same_but_bars (m m' : model R) : Prop :=
  m_nodes m' = m_nodes m /\ m_bounds m' = m_bounds m /\ m_forces m' = m_forces m /\ m_set m' = m_set m.
