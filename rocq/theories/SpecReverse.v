(** * Vocabulary: loads turned round *)
From Coq Require Import List ZArith Bool Arith Reals.
Import ListNotations.
From Verif Require Import Num NumR Vec Handlers Material Analysis Truss Equil Solver Run SpecSame.
Local Open Scope R_scope.

(** Control components are counted from 1 with a sign; with [n] free components the
    load factor has number [n + 1].  Its direction is turned round, those of the free
    components are kept. *)
Definition reversed_j (n : nat) (j : Z) : Z := if (Z.abs j =? Z.of_nat (S n))%Z then (- j)%Z else j.

Definition reversed_settings (n : nat) (s : settings R) : settings R :=
  Settings (s_incs s) (s_stepcontrol s) (s_maxfac s) (s_minfac s) (s_increase s) (s_reduce s)
           (s_dxtol s) (s_ftol s) (s_xtol s) (s_cycl s) (s_nfev s) (s_dlpf s) (s_du s)
           (s_xlimit s) (s_log s) (option_map (reversed_j n) (s_j0 s)) (s_jpre s) (s_jfixed s) (s_nstatev s) (s_nsteps s).

(** All loads of all steps with the opposite sign; all else is the same. *)
Definition reversed_model (n : nat) (m m' : model R) : Prop :=
  m_forces m' = option_map (fun h => ForceH (e_nodes h) (e_width h) (map (map Ropp) (e_rows h))) (m_forces m) /\
  m_nodes m' = m_nodes m /\ m_elems m' = m_elems m /\ m_bounds m' = m_bounds m /\ m_set m' = reversed_settings n (m_set m).

(** The same state of the structure, reached with the opposite load factor.  (The
    solver's intermediates are compared in [SpecMirror].) *)
Definition reversed_result (a a' : analysis R) : Prop :=
  a_step a' = a_step a /\ a_DOF0 a' = a_DOF0 a /\ a_DOF1 a' = a_DOF1 a /\
  a_U a' = a_U a /\ a_U0 a' = a_U0 a /\ a_r a' = a_r a /\ a_g a' = a_g a /\ a_K a' = a_K a /\
  a_stretch a' = a_stretch a /\ a_force a' = a_force a /\ a_stress a' = a_stress a /\ a_state a' = a_state a /\
  a_Ured a' = a_Ured a /\ a_dVmax a' = a_dVmax a /\ a_fconst a' = a_fconst a /\
  a_lpf a' = - a_lpf a /\ a_forces a' = map (map Ropp) (a_forces a) /\
  a_j a' = reversed_j (length (a_DOF1 a)) (a_j a).

Definition reversed_results (m m' : model R) : Prop :=
  exists u u', m_built m = Some u /\ m_built m' = Some u' /\
    Forall2 reversed_result (u_R u) (u_R u') /\ u_lpf_end u' = map Ropp (u_lpf_end u) /\ reversed_result (u_an u) (u_an u').

(** The same calls. *)
Definition reversed_action (n : nat) (a : action R) : action R :=
  match a with
  | ARun fuel => ARun fuel
  | ASet st => ASet (reversed_settings n st)
  end.
