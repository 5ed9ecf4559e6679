(** * Vocabulary: mirror images

    [mir] says in which coordinate directions a truss is reflected; two reflections
    together are a half turn about the third axis.  [rev] says whether the loads are,
    on top of that, turned round. *)
From Coq Require Import List ZArith Bool Arith Reals.
Import ListNotations.
From Verif Require Import Num NumR Vec Handlers Material Analysis Truss Equil Solver Run SpecSame.
Local Open Scope R_scope.

Definition opp_if (b : bool) (x : R) : R := if b then - x else x.

(** Entries of [x] with the signs changed where [bs] says so. *)
Definition flip (bs : list bool) (x : list R) : list R := map2 opp_if bs x.

Section Mirror.
  Variable mir : v3 bool.
  Variable rev : bool.

  Definition mirror (v : v3 R) : v3 R := vmap2 opp_if mir v.
  (** Blocks of the stiffness: both indices are directions. *)
  Definition mirror_block (M : m3 R) : m3 R := vmap2 (fun b row => vmap (opp_if b) (mirror row)) mir M.

  (** Is the direction of the [p]-th component (three per node) reflected? *)
  Definition turned (p : nat) : bool := vget mir (p mod 3).
  (** Rows with three numbers per node, or per step. *)
  Definition mirror_row (l : list R) : list R := flip (map turned (seq 0 (length l))) l.

  (** The unknowns: the active components [D1] and the load factor. *)
  Definition unknowns (D1 : list nat) : list bool := map turned D1 ++ [rev].
  (** Signed number of a control component. *)
  Definition flip_j (bs : list bool) (j : Z) : Z :=
    match py_get bs (Z.abs j - 1) with Ok true => (- j)%Z | _ => j end.

  (** The same settings; a locked control component is given the sign it has in the
      mirror image. *)
  Definition with_j0 (j0 : option Z) (s : settings R) : settings R :=
    Settings (s_incs s) (s_stepcontrol s) (s_maxfac s) (s_minfac s) (s_increase s) (s_reduce s)
             (s_dxtol s) (s_ftol s) (s_xtol s) (s_cycl s) (s_nfev s) (s_dlpf s) (s_du s)
             (s_xlimit s) (s_log s) j0 (s_jpre s) (s_jfixed s) (s_nstatev s) (s_nsteps s).
  Definition mirrored_settings (D1 : list nat) (s : settings R) : settings R :=
    with_j0 (option_map (flip_j (unknowns D1)) (s_j0 s)) s.

  (** Rows of the load table. *)
  Definition mirror_load (l : list R) : list R := map (opp_if rev) (mirror_row l).

  (** The mirrored model: coordinates and loads are mirrored, the loads turned round
      if so wished, all else is the same; [D1] are the free components. *)
  Definition mirrored_model (D1 : list nat) (m m' : model R) : Prop :=
    m_nodes m' = option_map (fun h => NodeH (n_labels h) (map mirror (n_coords h))) (m_nodes m) /\
    m_forces m' = option_map (fun h => ForceH (e_nodes h) (e_width h) (map mirror_load (e_rows h))) (m_forces m) /\
    m_elems m' = m_elems m /\ m_bounds m' = m_bounds m /\ m_set m' = mirrored_settings D1 (m_set m).

  (** The load table has three columns for each step. *)
  Definition whole_loads (m : model R) : Prop :=
    forall h, m_forces m = Some h -> (e_width h mod 3 = 0)%nat /\ Forall (fun r => length r = e_width h) (e_rows h).

  (** A mirrored result: displacements, forces and stiffness are mirrored, the load
      factor changes sign if the loads were turned round, element results are the
      same.  (The bordered matrix [a_Kmod] is an
      intermediate of the solver and not compared.) *)
  Definition mirrored_result (a a' : analysis R) : Prop :=
    let bs := unknowns (a_DOF1 a) in
    a_step a' = a_step a /\ a_DOF0 a' = a_DOF0 a /\ a_DOF1 a' = a_DOF1 a /\
    a_U a' = map mirror (a_U a) /\ a_U0 a' = map mirror (a_U0 a) /\ a_r a' = map mirror (a_r a) /\
    a_g a' = mirror_row (a_g a) /\ a_K a' = map (map mirror_block) (a_K a) /\
    a_stretch a' = a_stretch a /\ a_force a' = a_force a /\ a_stress a' = a_stress a /\ a_state a' = a_state a /\
    a_lpf a' = opp_if rev (a_lpf a) /\ a_dVmax a' = a_dVmax a /\ a_j a' = flip_j bs (a_j a) /\
    a_Ured a' = flip bs (a_Ured a) /\ a_Vred a' = flip bs (a_Vred a) /\ a_f0red a' = map (opp_if rev) (flip bs (a_f0red a)) /\
    a_Kred a' = map2 (fun b row => map (opp_if b) (flip bs row)) bs (a_Kred a) /\
    a_fconst a' = map mirror_row (a_fconst a) /\ a_forces a' = map mirror_load (a_forces a).

  Definition mirrored_results (m m' : model R) : Prop :=
    exists u u', m_built m = Some u /\ m_built m' = Some u' /\
      Forall2 mirrored_result (u_R u) (u_R u') /\ u_lpf_end u' = map (opp_if rev) (u_lpf_end u) /\ mirrored_result (u_an u) (u_an u').

  (** The automatic control starts in the direction of growing load factors, so an
      analysis of turned loads is asked to have a locked control component. *)
  Definition locked (s : settings R) : Prop := rev = true -> s_jfixed s = true.

  (** The same calls. *)
  Definition mirrored_action (D1 : list nat) (a : action R) : action R :=
    match a with
    | ARun fuel => ARun fuel
    | ASet st => ASet (mirrored_settings D1 st)
    end.
End Mirror.

(** A linear solver that returns as many unknowns as there are equations, and whose
    answer follows when equations are multiplied by -1 and unknowns are replaced by
    their negatives. *)
Definition sign_free (solve : list (list R) -> list R -> list R) : Prop :=
  (forall M b, length M = length b -> length (solve M b) = length b) /\
  forall M b es ds, length M = length b -> length es = length b -> length ds = length b ->
    Forall (fun row => length row = length b) M ->
    solve (map2 (fun e row => map (opp_if e) (flip ds row)) es M) (flip es b) = flip ds (solve M b).

(** The truss lies in a plane normal to axis [k] through the origin, and so do its
    loads. *)
Definition plane_model (k : nat) (m : model R) : Prop :=
  (forall h, m_nodes m = Some h -> Forall (fun x => vget x k = 0) (n_coords h)) /\
  (forall h, m_forces m = Some h -> Forall (fun r => forall p v, nth_error r p = Some v -> (p mod 3 = k)%nat -> v = 0) (e_rows h)).

(** A locked control component is not along axis [k]. *)
Definition plane_control (k : nat) (D1 : list nat) (s : settings R) : Prop :=
  forall j p, s_j0 s = Some j -> py_get D1 (Z.abs j - 1) = Ok p -> j <> 0%Z -> (p mod 3 <> k)%nat.

(** Nothing moves or pulls along axis [k]. *)
Definition plane_result (k : nat) (a : analysis R) : Prop :=
  Forall (fun x => vget x k = 0) (a_U a) /\ Forall (fun x => vget x k = 0) (a_r a) /\
  (forall p v, nth_error (a_g a) p = Some v -> (p mod 3 = k)%nat -> v = 0).
