(** * Vocabulary: units of force

    One and the same truss with forces and moduli given in another unit, [10^k] of the
    new unit being one of the old: k = 3 turns kN into N. *)
From Coq Require Import List ZArith Bool Arith Reals.
Import ListNotations.
From Verif Require Import Num NumR Vec Handlers Material Analysis Truss Equil Solver Run SpecSame.
Local Open Scope R_scope.

Definition ten (k : Z) : R := powerRZ 10 k.

(** The tolerance of the residual is a number of decimals; all else is the same. *)
Definition rescaled_settings (k : Z) (s : settings R) : settings R :=
  Settings (s_incs s) (s_stepcontrol s) (s_maxfac s) (s_minfac s) (s_increase s) (s_reduce s)
           (s_dxtol s) (s_ftol s - k)%Z (s_xtol s) (s_cycl s) (s_nfev s) (s_dlpf s) (s_du s)
           (s_xlimit s) (s_log s) (s_j0 s) (s_jpre s) (s_jfixed s) (s_nstatev s) (s_nsteps s).

(** The moduli and the yield stress are forces per area: all numbers of the material
    table change, those of the geometry table do not. *)
Definition rescaled_elems (t : R) (h : elemH R) : elemH R :=
  ElemH (el_labels h) (el_conns h) (el_etype h) (el_mtype h)
        (Tab (t_int (el_mat h)) (t_width (el_mat h)) (map (map (Rmult t)) (t_rows (el_mat h)))) (el_geo h).

Definition rescaled_forces (t : R) (h : forceH R) : forceH R := ForceH (e_nodes h) (e_width h) (map (map (Rmult t)) (e_rows h)).

Definition rescaled_model (k : Z) (m m' : model R) : Prop :=
  m_nodes m' = m_nodes m /\ m_bounds m' = m_bounds m /\
  m_elems m' = option_map (rescaled_elems (ten k)) (m_elems m) /\
  m_forces m' = option_map (rescaled_forces (ten k)) (m_forces m) /\
  m_set m' = rescaled_settings k (m_set m).

(** State rows: the yield stress, then the plastic strain. *)
Definition rescaled_state (t : R) (row : list R) : list R := match row with s :: l => t * s :: l | [] => [] end.

(** The same displacements, load factors, stretches and plastic strains; forces,
    stresses and stiffness in the new unit.  ([a_Kmod], the bordered matrix, mixes both
    and is not compared.) *)
Definition rescaled_result (t : R) (a a' : analysis R) : Prop :=
  a_step a' = a_step a /\ a_DOF0 a' = a_DOF0 a /\ a_DOF1 a' = a_DOF1 a /\
  a_U a' = a_U a /\ a_U0 a' = a_U0 a /\ a_Ured a' = a_Ured a /\ a_Vred a' = a_Vred a /\
  a_lpf a' = a_lpf a /\ a_dVmax a' = a_dVmax a /\ a_j a' = a_j a /\ a_stretch a' = a_stretch a /\
  a_r a' = map (vscale t) (a_r a) /\ a_g a' = map (Rmult t) (a_g a) /\ a_K a' = map (map (mscale t)) (a_K a) /\
  a_Kred a' = map (map (Rmult t)) (a_Kred a) /\ a_f0red a' = map (Rmult t) (a_f0red a) /\
  a_force a' = map (Rmult t) (a_force a) /\ a_stress a' = map (Rmult t) (a_stress a) /\
  a_state a' = option_map (map (rescaled_state t)) (a_state a) /\
  a_fconst a' = map (map (Rmult t)) (a_fconst a) /\ a_forces a' = map (map (Rmult t)) (a_forces a).

Definition rescaled_results (k : Z) (m m' : model R) : Prop :=
  exists u u', m_built m = Some u /\ m_built m' = Some u' /\
    Forall2 (rescaled_result (ten k)) (u_R u) (u_R u') /\ u_lpf_end u' = u_lpf_end u /\ rescaled_result (ten k) (u_an u) (u_an u').

(** The same calls. *)
Definition rescaled_action (k : Z) (a : action R) : action R :=
  match a with
  | ARun fuel => ARun fuel
  | ASet st => ASet (rescaled_settings k st)
  end.

(** A linear solver whose answer does not change when equations are multiplied by
    positive numbers. *)
Definition scale_free (solve : list (list R) -> list R -> list R) : Prop :=
  forall ts M b, Forall (fun t => 0 < t) ts -> length ts = length b -> length M = length b -> Forall (fun row => length row = length b) M ->
    solve (map2 (fun t row => map (Rmult t) row) ts M) (map2 Rmult ts b) = solve M b.

(** A linear solver that returns one number per equation and satisfies a last equation
    of the form "unknown number [p] is [c]" exactly. *)
Definition keeps_control (solve : list (list R) -> list R -> list R) : Prop :=
  forall M b p c, length M = length b -> Forall (fun row => length row = S (length b)) M -> (p < S (length b))%nat ->
    length (solve (M ++ [set_nth p 1 (repeat 0 (S (length b)))]) (b ++ [c])) = S (length b) /\
    nth_error (solve (M ++ [set_nth p 1 (repeat 0 (S (length b)))]) (b ++ [c])) p = Some c.
