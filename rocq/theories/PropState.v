(** * Properties of the recorded displacements, state variables and material types

    C21 locked and active displacement components, C22 state variables,
    C40 elements of unknown material type.  Vocabulary: SpecState.v, SpecRun.v,
    SpecMech.v, SpecBuild.v.  All theorems hold for every number type. *)
From Coq Require Import List ZArith Bool Arith Lia.
Import ListNotations.
From Verif Require Import Num Vec Handlers Material Analysis Truss Equil Solver Run EditFacts SpecMech SpecBuild
  SpecSolver SpecState SpecRun FrameFacts EvalFacts SessionFacts RunProps TypeFacts NumFix ExRun.

(** ** C21 locked and active components *)
(** After build and any number of runs, in the analysis object and in every
    recorded result, every displacement component whose support flag is not 1 is
    exactly 0 ([nh] is the sorted node table). *)
Theorem C21_locked : forall F (NF : Num F) argsortZ argsortF solve P m ns ms bs fs m1,
  argsort_ok argsortZ -> described m ns ms bs fs -> session argsortF solve argsortZ P m m1 ->
  exists nh u, m_nodes m1 = Some nh /\ m_built m1 = Some u /\
    forall a, a = u_an u \/ In a (u_R u) ->
    forall p l d, nth_error (n_labels nh) p = Some l -> d < 3 ->
      nth d (row_for bs [1; 1; 1]%Z l) 1%Z <> 1%Z ->
      nth_error (vflat (a_U a)) (3 * p + d) = Some f0 /\ nth_error (vflat (a_U0 a)) (3 * p + d) = Some f0.
Proof. intros F NF argsortZ argsortF solve P m ns ms bs fs m1. apply session_locked. Qed.
Print Assumptions C21_locked.

(** Without the predictor the active components are the recorded reduced vector
    in the analysis object and in every recorded result. *)
Theorem C21_active : forall F (NF : Num F) argsortZ argsortF solve m ns ms bs fs m1,
  argsort_ok argsortZ -> described m ns ms bs fs ->
  session argsortF solve argsortZ no_predictor m m1 ->
  exists u, m_built m1 = Some u /\
    (1 <= u_ndof1 u -> active (u_an u) /\ forall a, In a (u_R u) -> active a).
Proof. intros F NF argsortZ argsortF solve m ns ms bs fs m1. apply session_active. Qed.
Print Assumptions C21_active.

(** With any settings: the same for every increment, except those in which the
    predictor succeeded (these record the vector of the increment before). *)
Theorem C21_active_newton : forall F (NF : Num F) argsortZ argsortF solve P m ns ms bs fs m1 fuel m2 out logs,
  argsort_ok argsortZ -> described m ns ms bs fs -> session argsortF solve argsortZ P m m1 ->
  ran_as argsortF solve m1 fuel m2 out logs ->
  (forall u, m_built m1 = Some u -> 1 <= u_ndof1 u) ->
  forall lg, In lg logs ->
    along (fun x0 a0 x a => active a \/
             (s_jpre (m_set m1) = true /\ s_jfixed (m_set m1) = false /\ x = x0))
          (a_Ured (lg_start lg) ++ [f0]) (lg_start lg) (lg_recs lg).
Proof. intros F NF argsortZ argsortF solve P m ns ms bs fs m1 fuel m2 out logs. apply records_active. Qed.
Print Assumptions C21_active_newton.

(** The exception occurs: with the predictor on and two digits, a recorded result
    shows displacements that are not its reduced vector. *)
Theorem C21_predictor_refuted : exists st m1 m2 out u a v,
  build argsort_ins (xr_at st) = Ok m1 /\ run argsort_fx gauss m1 40 = Ok (m2, out) /\
  (forall e, In e out -> ~ error_line e) /\
  m_built m2 = Some u /\ In a (u_R u) /\ gather (vflat (a_U a)) (a_DOF1 a) = Ok v /\ v <> a_Ured a.
Proof.
  pose (test := fun (m1 m2 : model fix_) (out : list msg) =>
    forallb (fun e => match e with MIncr => true | _ => false end) out &&
    on_built false (fun u => match u_R u with
      | _ :: a :: _ => match gather (vflat (a_U a)) (a_DOF1 a) with
                       | Ok v => negb (eq_list eq_fix v (a_Ured a))
                       | _ => false end
      | _ => false end) m2).
  destruct (xr_tested (xr_settings 2 0 true false None 8 3 1) test) as (m1 & m2 & out & Hb & Hr & Ht);
    [vm_compute; reflexivity|].
  unfold test, on_built in Ht. apply andb_true_iff in Ht. destruct Ht as [Ho Ht].
  destruct (m_built m2) as [u|] eqn:Eu; [|discriminate]. destruct (u_R u) as [|r0 [|a R]] eqn:ER; try discriminate.
  destruct (gather (vflat (a_U a)) (a_DOF1 a)) as [v| |] eqn:Eg; try discriminate.
  exists (xr_settings 2 0 true false None 8 3 1), m1, m2, out, u, a, v.
  split; [exact Hb|]. split; [exact Hr|]. split.
  { intros e He. rewrite forallb_forall in Ho. specialize (Ho e He). destruct e; try discriminate. intros [E|E]; discriminate. }
  split; [exact Eu|]. split; [rewrite ER; right; left; reflexivity|]. split; [exact Eg|].
  intros E. apply (eq_list_ok eq_fix eq_fix_ok) in E. rewrite E in Ht. discriminate.
Qed.
Print Assumptions C21_predictor_refuted.

(** The hypotheses are met: build, run two steps of three increments without
    predictor; six results are added and two of nine components are active. *)
Example C21_meets : exists m1 m2 out u,
  described (xr_at (xr_settings 8 8 false false None 8 3 2)) xr_ns xr_ms xr_bs xr_fs /\
  session argsort_fx gauss argsort_ins no_predictor (xr_at (xr_settings 8 8 false false None 8 3 2)) m2 /\
  build argsort_ins (xr_at (xr_settings 8 8 false false None 8 3 2)) = Ok m1 /\
  run argsort_fx gauss m1 40 = Ok (m2, out) /\
  m_built m2 = Some u /\ u_ndof1 u = 2 /\ length (u_R u) = 7 /\ (0 < s_nstatev (m_set m1))%Z /\
  (0 < s_nsteps (m_set m1))%Z.
Proof.
  pose (test := fun (m1 m2 : model fix_) (out : list msg) =>
    on_built false (fun u => (u_ndof1 u =? 2) && (length (u_R u) =? 7)) m2 && (0 <? s_nstatev (m_set m1))%Z &&
    (0 <? s_nsteps (m_set m1))%Z && negb (s_jpre (m_set m1))).
  destruct (xr_tested (xr_settings 8 8 false false None 8 3 2) test) as (m1 & m2 & out & Hb & Hr & Ht);
    [vm_compute; reflexivity|].
  unfold test, on_built in Ht. destruct (m_built m2) as [u|] eqn:Eu; [|discriminate].
  rewrite !andb_true_iff, !Nat.eqb_eq, !Z.ltb_lt, negb_true_iff in Ht. exists m1, m2, out, u.
  split; [apply xr_described|]. split; [|tauto].
  eapply s_run; [apply s_build; exact Hb| |exact Hr]. left. tauto.
Qed.

(** ** C22 state variables *)
(** An evaluation without the write flag, and a stiffness evaluation, leave the
    state table as it is. *)
Theorem C22_untouched : forall F (NF : Num F) (c : ctx F) V V0 a a' r,
  (equilibrium c V V0 false a = Ok (a', r) -> a_state a' = a_state a) /\
  (forall K, stiffness c V a = Ok (a', K) -> a_state a' = a_state a).
Proof.
  intros F NF c V V0 a a' r. split.
  - intros H. apply equilibrium_same in H. now apply H.
  - intros K H. apply stiffness_same in H. apply H.
Qed.
Print Assumptions C22_untouched.

(** With the flag, the row of every element becomes what its own law returns for
    its own old row and the stretch recorded for it. *)
Theorem C22_written : forall F (NF : Num F) (c : ctx F) ms V V0 a a' r sv,
  truss_ok c ms -> sizes_ok c ms a -> (0 < c_nstatev c)%Z -> a_state a = Some sv ->
  equilibrium c V V0 true a = Ok (a', r) -> state_updated ms a a'.
Proof.
  intros F NF c ms V V0 a a' r sv Hok Hsz Hn Hs H.
  destruct (state_written _ _ _ _ _ _ _ _ Hok Hsz H Hn Hs) as (sv' & E1 & E2 & E3).
  exists sv, sv'. repeat match goal with |- _ /\ _ => split end; auto. intros k b Hb.
  destruct (E3 k b Hb) as (row & row' & lam & st & de & ds & G1 & G2 & G3 & G4 & G5).
  exists row, row', lam, st, ds. repeat match goal with |- _ /\ _ => split end; auto.
  intros de'. rewrite <- G5. apply umat_de.
Qed.
Print Assumptions C22_written.

(** Over a whole run: from one accepted increment to the next every row is
    updated exactly once; a failed increment keeps the rows, and so does one in
    which the predictor succeeded. *)
Theorem C22_run : forall F (NF : Num F) argsortZ argsortF solve P m ns ms bs fs m1 fuel m2 out logs,
  argsort_ok argsortZ -> described m ns ms bs fs -> session argsortF solve argsortZ P m m1 ->
  ran_as argsortF solve m1 fuel m2 out logs -> (0 < s_nstatev (m_set m1))%Z ->
  forall lg, In lg logs -> exists recs, good_part lg recs /\
    along (fun x0 a0 x a => state_updated ms a0 a \/
             (s_jpre (m_set m1) = true /\ s_jfixed (m_set m1) = false /\ x = x0 /\ a_state a = a_state a0))
          (a_Ured (lg_start lg) ++ [f0]) (lg_start lg) recs /\
    (lg_recs lg = recs \/ exists x a, lg_recs lg = recs ++ [(x, a)] /\
       a_state a = a_state (snd (last recs (x, lg_start lg)))).
Proof. intros F NF argsortZ argsortF solve P m ns ms bs fs m1 fuel m2 out logs. apply records_state. Qed.
Print Assumptions C22_run.

(** The next step starts with the rows the step before left behind. *)
Theorem C22_next_step : forall F (NF : Num F) argsortF solve c st rows fuel k prev lpfs pl lg1 lg2 rest,
  steps_from argsortF solve c st rows fuel k prev lpfs pl (lg1 :: lg2 :: rest) ->
  a_state (lg_start lg1) = a_state prev /\ a_state (lg_start lg2) = a_state (lg_final lg1).
Proof.
  intros F NF argsortF solve c st rows fuel k prev lpfs pl lg1 lg2 rest
    ((_ & _ & _ & _ & E1) & _ & (_ & _ & _ & _ & E2) & _).
  rewrite E1, E2. split; reflexivity.
Qed.
Print Assumptions C22_next_step.

(** ** C40 unknown material types *)
(** First element: no evaluation returns. *)
Theorem C40_first : forall F (NF : Num F) (c : ctx F) e ls t ts,
  NoDup (el_labels (c_elems c)) ->
  el_labels (c_elems c) = e :: ls -> el_mtype (c_elems c) = t :: ts -> known_type t = false ->
  (forall V V0 w an r, equilibrium c V V0 w an <> Ok r) /\ (forall V an r, stiffness c V an <> Ok r).
Proof. intros F NF c e ls t ts. apply first_unknown. Qed.
Print Assumptions C40_first.

(** Otherwise an element of unknown type behaves like one with the nearest
    preceding known type: same build, same run. *)
Theorem C40_build : forall F (NF : Num F) argsortZ (m : model F) h t ts,
  m_elems m = Some h -> el_mtype h = t :: ts -> known_type t = true ->
  build argsortZ (model_types (effective t (t :: ts)) m) =
  (m' <- build argsortZ m ;; Ok (model_types (effective t (t :: ts)) m')).
Proof. intros F NF argsortZ m h t ts. apply build_types. Qed.
Print Assumptions C40_build.

Theorem C40_run : forall F (NF : Num F) argsortF solve (m : model F) fuel h t ts,
  m_elems m = Some h -> NoDup (el_labels h) -> length (el_mtype h) = length (el_labels h) ->
  el_mtype h = t :: ts -> known_type t = true ->
  run argsortF solve (model_types (effective t (t :: ts)) m) fuel =
  (r <- run argsortF solve m fuel ;; Ok (model_types (effective t (t :: ts)) (fst r), snd r)).
Proof. intros F NF argsortF solve m fuel h t ts. apply run_types. Qed.
Print Assumptions C40_run.

(** A type list with unknown types, the types in force, and a model with an
    unknown second type that builds and runs. *)
Example C40_types : effective 1 [1; 7; 2; 0; 9; 1; 3]%Z = [1; 1; 2; 2; 2; 1; 1]%Z.
Proof. reflexivity. Qed.

Example C40_meets : exists m1 r,
  el_mtype (retype [2; 7]%Z (@xr_elems fix_ _)) = [2; 7]%Z /\ known_type 2 = true /\ known_type 7 = false /\
  build argsort_ins (model_types [2; 7]%Z (xr_at (xr_settings 8 8 false false None 8 2 1))) = Ok m1 /\
  run argsort_fx gauss m1 40 = Ok r.
Proof.
  destruct (build argsort_ins (model_types [2; 7]%Z (xr_at (xr_settings 8 8 false false None 8 2 1)))) as [m1| |] eqn:Eb;
    [|vm_compute in Eb; discriminate..].
  destruct (run argsort_fx gauss m1 40) as [r| |] eqn:Er.
  - exists m1, r. auto.
  - exfalso. vm_compute in Eb. injection Eb as <-. vm_compute in Er. discriminate.
  - exfalso. vm_compute in Eb. injection Eb as <-. vm_compute in Er. discriminate.
Qed.
