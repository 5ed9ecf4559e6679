(** * C67: the printed summary and tables *)
From Coq Require Import List ZArith Bool Arith Lia Reals Lra Permutation Sorted.
Import ListNotations.
From Verif Require Import Num Vec Handlers Material Analysis Truss Equil Solver Run Text NumR SpecBuild SpecSolver SpecRun SpecText SpecTable
  BuildFacts EditFacts NumFix ExRun TextFacts TextProps TableFacts TablePath TableRun PropText.

(** A build that returns prints nothing up to level 1.  From level 2 on it prints the
    numbers of nodes, elements, DOFs, active and fixed DOFs and the lists of active and
    fixed DOFs of the model it returns. *)
Theorem C67_summary {F} `{NF : Num F} argsortZ (m : model F) T m' : argsort_ok argsortZ ->
  build_t argsortZ m = (T, Ok m') ->
  exists nh eh u, m_nodes m' = Some nh /\ m_elems m' = Some eh /\ m_built m' = Some u /\
    let nodes := length (n_labels nh) in
    let active := a_DOF1 (u_an u) in let fixed := a_DOF0 (u_an u) in
    T = (if (1 <? s_log (m_set m'))%Z
         then [LBlank; LSummary; LDim 3; LNodes nodes; LElems (length (el_labels eh)); LSpace;
               LDof (3 * nodes); LDof1 (length active); LDof0 (length fixed); LSpace; LActive active; LFixed fixed]
         else []).
Proof.
  intros Hs H. unfold build_t in H. cbv zeta in H.
  destruct (m_nodes m) as [nh0|] eqn:En; [|discriminate]. destruct (m_elems m) as [eh|] eqn:Ee; [|discriminate].
  tq H on E1. destruct on as [nh|]; [|discriminate]. tq H ob E2. tq H oe E3.
  destruct ob as [bh|]; [|discriminate]. destruct oe as [fh|]; [|discriminate].
  tq H c1 E4. tq H c2 E5. destruct (negb c2); [discriminate|]. tq H D0 E6. tq H D1 E7. tsay H t1. tq H an E8.
  apply quiet_ok in H as [-> H]. injection H as <-. exists nh, eh. eexists. cbn [m_nodes m_elems m_built m_set u_an].
  split; [reflexivity|]. split; [reflexivity|]. split; [reflexivity|]. cbv zeta. cbn [u_an].
  rewrite (fix_nodes_labels argsortZ Hs _ _ E1). unfold analysis_build in E8.
  destruct (gather _ _) as [ured| |]; try discriminate. cbn [bind] in E8. injection E8 as <-. cbn [a_DOF0 a_DOF1].
  rewrite app_nil_r. reflexivity.
Qed.
Print Assumptions C67_summary.

(** A run that returns, step by step [logs], shows from level 2 on the settings in
    force, and at every level, before each step but the first, the constant forces and
    the start vector of the step: the displacements reached and a load factor of 0. *)
Theorem C67_parameters {F} `{NF : Num F} argsortF solve (m : model F) fuel T m' out :
  run_t argsortF solve m fuel = (T, Ok (m', out)) -> (0 < s_nsteps (m_set m))%Z ->
  exists logs, ran_as argsortF solve m fuel m' out logs /\
    params_in T = (if (1 <? s_log (m_set m))%Z then settings_table (m_set m) else []) /\
    constants_in T = map (fun lg => a_fconst (lg_start lg)) (tl logs) /\
    starts_in T = map (fun lg => a_Ured (lg_start lg) ++ [f0]) (tl logs).
Proof.
  intros H Hn. destruct (run_table argsortF solve m fuel T m' out H Hn) as (logs & H1 & H2 & H3 & H4 & _). exists logs. auto.
Qed.
Print Assumptions C67_parameters.

(** From level 2 on the text of a run that returns consists of one part per step, and
    this of one part per recorded increment with the tables of its cycles.  The last
    row of totals shows the recorded control component, the three components that
    changed most relative to the recorded allowed change, and a norm below the
    tolerance unless there is an ERROR line. *)
Theorem C67_tables {F} `{NF : Num F} argsortF solve (m : model F) fuel T m' out : argsort_sorts argsortF ->
  run_t argsortF solve m fuel = (T, Ok (m', out)) -> (0 < s_nsteps (m_set m))%Z -> (1 < s_log (m_set m))%Z ->
  exists logs head parts, ran_as argsortF solve m fuel m' out logs /\
    T = head ++ concat parts /\ steps_in head = [] /\
    Forall2 (step_shows (pow10neg (s_ftol (m_set m))) (s_jpre (m_set m) = true /\ s_jfixed (m_set m) = false)) parts logs.
Proof.
  intros Hs H Hn Hv. destruct (run_table argsortF solve m fuel T m' out H Hn) as (logs & H1 & _ & _ & _ & H5).
  destruct (H5 Hs Hv) as (head & ts & E & Hh & Hf). exists logs, head, ts. auto.
Qed.
Print Assumptions C67_tables.

(** Over the reals the values shown are the components themselves. *)
Theorem C67_leaders (q : list R) ls : leaders q ls ->
  NoDup (map fst ls) /\
  (forall i v, In (i, v) ls -> (1 <= i)%nat /\ nth_error q (i - 1) = Some v) /\
  StronglySorted (fun a b => Rabs (snd b) <= Rabs (snd a))%R ls /\
  (forall i v k w, In (i, v) ls -> nth_error q k = Some w -> ~ In (S k) (map fst ls) -> (Rabs w <= Rabs v)%R).
Proof.
  intros (ps & rest & Hp & -> & H).
  assert (Hn : numbers (map fabs q)).
  { apply Forall_forall. intros v _. cbn. unfold Rleb. destruct (Rle_dec v v); [reflexivity|]. lra. }
  destruct (H Hn) as [H1 H2]. clear H Hn.
  assert (Hin : forall p, In p ps -> (p < length q)%nat).
  { intros p Hip. assert (Hi : In p (seq 0 (length q))) by (eapply Permutation_in; [exact Hp|]; apply in_or_app; now left). apply in_seq in Hi. lia. }
  assert (Hv : forall v : R, fmul (fabs v) (fsign v) = v).
  { intros v. unfold fsign. cbn. unfold Rltb. destruct (Rlt_dec 0 v) as [Hv|Hv]; cbn; [rewrite Rabs_right; lra|].
    destruct (Rlt_dec v 0) as [Hw|Hw]; cbn; [rewrite Rabs_left; lra|]. assert (v = 0)%R by lra. subst v. rewrite Rabs_R0. lra. }
  assert (Hnd : NoDup (ps ++ rest)) by (eapply Permutation_NoDup; [apply Permutation_sym, Hp|apply seq_NoDup]).
  assert (Em : map fst (map (fun p => (S p, fmul (fabs (nth p q f0)) (fsign (nth p q f0)))) ps) = map S ps) by (rewrite map_map; reflexivity).
  rewrite Em. split; [|split; [|split]].
  - apply FinFun.Injective_map_NoDup; [intros a b E; now injection E|]. clear - Hnd. induction ps as [|p ps IH]; [constructor|].
    cbn in Hnd. inversion Hnd; subst. constructor; [|auto]. intros Hi. apply H1. apply in_or_app. now left.
  - intros i v Hi. apply in_map_iff in Hi as (p & E & Hip). injection E as <- <-. split; [lia|]. rewrite Nat.sub_succ, Nat.sub_0_r, Hv.
    apply nth_error_nth'. auto.
  - apply (sorted_map (fun p => fabs (nth p q f0))) in H1. apply map_sorted. cbn [snd].
    eapply sorted_impl; [|exact H1]. intros a b Hab. rewrite !Hv. apply Rleb_true. exact Hab.
  - intros i v k w Hi Hk Hno. apply in_map_iff in Hi as (p & E & Hip). injection E as _ <-. rewrite Hv.
    assert (Hkl : (k < length q)%nat) by (apply nth_error_Some; congruence).
    assert (Hik : In k (ps ++ rest)) by (eapply Permutation_in; [apply Permutation_sym, Hp|]; apply in_seq; lia).
    apply in_app_or in Hik as [Hik|Hik]; [exfalso; apply Hno; now apply in_map|].
    specialize (H2 p k Hip Hik). apply Rleb_true in H2. rewrite (nth_error_nth _ _ f0 Hk) in H2. exact H2.
Qed.
Print Assumptions C67_leaders.

(** ** Example *)
Lemma argsort_fx_sorts : argsort_sorts argsort_fx.
Proof.
  intros l. unfold argsort_fx. destruct (argsort_ins_ok (map fx l)) as [H1 H2]. rewrite map_length in H1. split; [exact H1|]. intros _.
  apply (sorted_map (fun i => nth i (map fx l) 0%Z)) in H2. apply map_sorted.
  eapply sorted_impl; [|exact H2]. intros a b Hab. cbn. apply Z.leb_le.
  rewrite <- !(map_nth fx l). exact Hab.
Qed.

(** A two step run at level 2: it shows 15 settings, the constant forces and the start
    vector of the second step, and six rows of totals. *)
Example C67_meets : argsort_sorts argsort_fx /\ argsort_ok argsort_ins /\ exists m1 T0 T m2 out,
  build_t argsort_ins (xr_at (xt_settings 2)) = (T0, Ok m1) /\ length T0 = 12%nat /\ In (LActive [3; 4]%nat) T0 /\
  run_t argsort_fx gauss m1 40 = (T, Ok (m2, out)) /\
  (0 < s_nsteps (m_set m1))%Z /\ (1 < s_log (m_set m1))%Z /\
  length (params_in T) = 15%nat /\ length (constants_in T) = 1%nat /\ length (starts_in T) = 1%nat /\
  length (filter (fun l => match l with LTotal _ _ _ _ _ _ _ _ _ _ => true | _ => false end) (rows_in T)) = 6%nat.
Proof.
  split; [exact argsort_fx_sorts|]. split; [exact argsort_ins_ok|].
  destruct (xt_tested (xr_at (xt_settings 2)) (fun m1 T r =>
    (0 <? s_nsteps (m_set m1))%Z && (1 <? s_log (m_set m1))%Z &&
    Nat.eqb (length (params_in T)) 15 && Nat.eqb (length (constants_in T)) 1 && Nat.eqb (length (starts_in T)) 1 &&
    Nat.eqb (length (filter (fun l => match l with LTotal _ _ _ _ _ _ _ _ _ _ => true | _ => false end) (rows_in T))) 6 &&
    match r with Ok _ => true | _ => false end))
    as (m1 & T & r & Eb & E & H); [vm_cast_no_check (eq_refl true)|].
  repeat (apply andb_prop in H as [H ?]). destruct r as [[m2 out]| |]; try discriminate.
  exists m1, (fst (build_t argsort_ins (xr_at (xt_settings 2)))), T, m2, out.
  split; [rewrite <- Eb, <- build_same; apply surjective_pairing|].
  split; [vm_compute; reflexivity|]. split; [vm_compute; auto 15|]. split; [exact E|].
  split; [now apply Z.ltb_lt|]. split; [now apply Z.ltb_lt|]. repeat split; now apply Nat.eqb_eq.
Qed.
