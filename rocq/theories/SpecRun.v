(** * Vocabulary for the properties of Model.run *)
From Coq Require Import List ZArith Bool Arith.
Import ListNotations.
From Verif Require Import Num Vec Handlers Analysis Equil Solver Run SpecMech SpecBuild SpecSolver.

(** What one load step did: the analysis object at its start, the recorded
    increments (vector and analysis object of each) and the printed lines. *)
Record step_log (F : Type) := Log {
  lg_start : analysis F;
  lg_recs : list (list F * analysis F);
  lg_out : list msg
}.
Arguments Log {F}. Arguments lg_start {F}. Arguments lg_recs {F}. Arguments lg_out {F}.

(** A setting given once for all steps, or as a list with one entry per step: [x] is
    its value in step [k] (counted from 0). *)
Definition in_step {A} (p : perstep A) (k : nat) (x : A) : Prop :=
  match p with Same y => y = x | Per l => nth_error l k = Some x end.

Section Spec.
  Context {F : Type} `{NF : Num F}.
  Local Open Scope num_scope.
  Variable argsortF : list F -> list nat.
  Variable solve : list (list F) -> list F -> list F.

  (** The object in force after a step: the last record, or the start. *)
  Definition lg_final (lg : step_log F) : analysis F :=
    snd (last (lg_recs lg) ([], lg_start lg)).

  (** The results of a step. *)
  Definition lg_results (lg : step_log F) : list (analysis F) := map snd (lg_recs lg).

  (** Load factor at the end of a step ([prev] if nothing was recorded). *)
  Definition lg_end (prev : F) (lg : step_log F) : F :=
    match rev (lg_recs lg) with [] => prev | p :: _ => a_lpf (snd p) end.

  (** The step is one call of pathfollow on its start object. *)
  Definition step_ran (c : ctx F) (st : settings F) (fuel : nat) (k : nat) (lg : step_log F) : Prop :=
    exists incs xlimit pf,
      in_step (s_incs st) k incs /\ in_step (s_xlimit st) k xlimit /\
      pathfollow solve argsortF (equilibrium c) (stiffness c) (a_Ured (lg_start lg)) (lg_start lg)
        (DxVec [s_du st; s_dlpf st]) (s_j0 st) (s_jpre st) (pf_config st xlimit incs) fuel = Ok pf /\
      ps_res pf = (a_Ured (lg_start lg) ++ [f0], lg_start lg) :: lg_recs lg /\
      ps_out pf = lg_out lg.

  (** Component [d] of node row [i] after the steps with end load factors [lpfs]:
      the sum of load factor times reference force over these steps. *)
  Definition history (lpfs : list F) (row : list F) (s d : nat) : F :=
    fold_left (fun x t => x + nth t lpfs f0 * nth (3 * t + d) row f0) (seq 0 s) f0.

  (** [fconst] superposes the first [s] steps of the force table [rows]. *)
  Definition superposed (rows : list (list F)) (lpfs : list F) (s : nat) (fconst : list (list F)) : Prop :=
    length fconst = length rows /\
    forall i row, nth_error rows i = Some row ->
      exists frow, nth_error fconst i = Some frow /\ length frow = length (firstn 3 (skipn (3 * s) row)) /\
        forall d, (d < length frow)%nat -> nth_error frow d = Some (history lpfs row s d).

  (** Three columns of the force table. *)
  Definition columns (s : nat) (rows : list (list F)) : list (list F) :=
    map (fun r => firstn 3 (skipn (3 * s) r)) rows.

  (** The start object [an] of step [k] (counted from 0) made from [prev]: the
      displacements, DOFs and state variables are those of [prev], the step
      number and the loads are those of the step. *)
  Definition step_starts (rows : list (list F)) (lpfs : list F) (k : nat) (prev an : analysis F) : Prop :=
    a_step an = (1 + Z.of_nat k)%Z /\ superposed rows lpfs k (a_fconst an) /\
    a_forces an = columns k rows /\ gather (concat (columns k rows)) (a_DOF1 prev) = Ok (a_f0red an) /\
    an = set_step (a_step an) (set_f0red (a_f0red an) (set_forces (a_forces an) (set_fconst (a_fconst an) prev))).

  (** The object is handed over to the next step with the load factor set to 0. *)
  Definition handed_over (a : analysis F) : analysis F :=
    set_lpf f0 (set_Vred (match a_Vred a with [] => [] | _ => removelast (a_Vred a) ++ [f0] end) a).

  (** Consecutive steps from number [k] on. *)
  Fixpoint steps_from (c : ctx F) (st : settings F) (rows : list (list F)) (fuel : nat)
      (k : nat) (prev : analysis F) (lpfs : list F) (pl : F) (logs : list (step_log F)) : Prop :=
    match logs with
    | [] => True
    | lg :: rest =>
        step_starts rows lpfs k prev (lg_start lg) /\ step_ran c st fuel k lg /\
        steps_from c st rows fuel (S k) (handed_over (lg_final lg))
          (lpfs ++ [lg_end pl lg]) (lg_end pl lg) rest
    end.

  (** End load factors of consecutive steps. *)
  Fixpoint ends (pl : F) (logs : list (step_log F)) : list F :=
    match logs with [] => [] | lg :: rest => lg_end pl lg :: ends (lg_end pl lg) rest end.

  (** [P] holds from each record to the next, starting with [x0], [a0]. *)
  Fixpoint along (P : list F -> analysis F -> list F -> analysis F -> Prop)
      (x0 : list F) (a0 : analysis F) (recs : list (list F * analysis F)) : Prop :=
    match recs with
    | [] => True
    | (x, a) :: rest => P x0 a0 x a /\ along P x a rest
    end.

  (** The records of a step without the failed one: all of them if no ERROR line
      was printed, all but the last otherwise. *)
  Definition good_part (lg : step_log F) (recs : list (list F * analysis F)) : Prop :=
    (lg_recs lg = recs /\ forall m, In m (lg_out lg) -> ~ error_line m) \/
    (exists p ms e, lg_recs lg = recs ++ [p] /\ lg_out lg = ms ++ [e] /\ error_line e).

  (** A model as the user describes it: node rows [ns], members [ms], support rows
      [bs] with three flags each and load rows [fs]; at least two nodes, distinct
      labels, and every member joins two different existing nodes. *)
  Definition described (m : model F) (ns : list (Z * v3 F)) (ms : list (member F))
      (bs : list (Z * list Z)) (fs : list (Z * list F)) : Prop :=
    nodes_are (m_nodes m) ns /\ bounds_are (m_bounds m) bs /\ forces_are (m_forces m) fs /\
    (exists eh, m_elems m = Some eh /\ lists_members eh ms) /\
    (2 <= length ns)%nat /\ NoDup (map fst ns) /\ NoDup (map mb_label ms) /\
    (forall r, In r (map snd bs) -> length r = 3%nat) /\
    (forall b, In b ms -> In (mb_a b) (map fst ns) /\ In (mb_b b) (map fst ns) /\ mb_a b <> mb_b b).

  (** Build followed by any number of runs.  In between the settings may be
      changed (not the number of state variables); [P] holds of the settings of
      every run. *)
  Variable argsortZ : list Z -> list nat.

  Definition with_settings (st : settings F) (m : model F) : model F :=
    Model (m_nodes m) (m_elems m) (m_bounds m) (m_forces m) st (m_built m).

  Inductive session (P : settings F -> Prop) (m : model F) : model F -> Prop :=
  | s_build m' : build argsortZ m = Ok m' -> session P m m'
  | s_run m1 fuel m2 out : session P m m1 -> P (m_set m1) ->
      run argsortF solve m1 fuel = Ok (m2, out) -> session P m m2
  | s_settings m1 st : session P m m1 -> s_nstatev st = s_nstatev (m_set m1) ->
      session P m (with_settings st m1).

  (** No predictor evaluation is made at the start of an increment. *)
  Definition no_predictor (st : settings F) : Prop := s_jpre st = false \/ s_jfixed st = true.

  (** The active components of the displacement field are the reduced vector. *)
  Definition active (a : analysis F) : Prop := gather (vflat (a_U a)) (a_DOF1 a) = Ok (a_Ured a).

  (** The same settings with another initial control component. *)
  Definition with_j0 (j : option Z) (s : settings F) : settings F :=
    Settings (s_incs s) (s_stepcontrol s) (s_maxfac s) (s_minfac s) (s_increase s) (s_reduce s)
             (s_dxtol s) (s_ftol s) (s_xtol s) (s_cycl s) (s_nfev s) (s_dlpf s) (s_du s)
             (s_xlimit s) (s_log s) j (s_jpre s) (s_jfixed s) (s_nstatev s) (s_nsteps s).

  (** What the evaluations read of the model. *)
  Definition ctx_of (m : model F) (u : built F) (nh : nodeH F) (eh : elemH F) : ctx F :=
    Ctx (n_labels nh) (n_coords nh) eh (u_nnodes u) (u_ndof1 u) (s_nstatev (m_set m)).

  (** [run] returned normally after the steps [logs]; they start from the present
      analysis object with load factor 0 and their results follow the first result
      and the earlier results but the last. *)
  Definition ran_as (m : model F) (fuel : nat) (m' : model F) (out : list msg) (logs : list (step_log F)) : Prop :=
    run argsortF solve m fuel = Ok (m', out) /\
    Z.of_nat (length logs) = s_nsteps (m_set m) /\ logs <> [] /\
    exists u nh eh fh r0 rest u',
      m_built m = Some u /\ m_nodes m = Some nh /\ m_elems m = Some eh /\ m_forces m = Some fh /\
      u_R u = r0 :: rest /\ m_built m' = Some u' /\
      steps_from (ctx_of m u nh eh) (m_set m) (e_rows fh) fuel 0
        (set_lpf f0 (set_Vred (a_Ured (u_an u) ++ [f0]) (u_an u))) (u_lpf_end u)
        (a_lpf (last (u_R u) r0)) logs /\
      u_R u' = r0 :: removelast (u_R u) ++ concat (map lg_results logs) /\
      u_lpf_end u' = u_lpf_end u ++ ends (a_lpf (last (u_R u) r0)) logs /\
      out = concat (map lg_out logs) /\
      (forall d, u_an u' = lg_final (last logs d)).

  (** The recorded residual is minus the internal forces plus the constant forces
      plus LPF times the reference forces, in every component. *)
  Definition residual_is (a : analysis F) : Prop :=
    length (a_g a) = (3 * length (a_U a))%nat /\
    forall k, (k < 3 * length (a_U a))%nat ->
      nth k (a_g a) f0 = - nth k (vflat (a_r a)) f0 + nth k (concat (a_fconst a)) f0
                         + a_lpf a * nth k (concat (a_forces a)) f0.
End Spec.
