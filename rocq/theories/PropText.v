(** * C54 to C56: the printed text *)
From Coq Require Import List ZArith Bool Arith Lia.
Import ListNotations.
From Verif Require Import Num Vec Handlers Material Analysis Truss Equil Solver Run Text SpecSolver SpecRun SpecText
  EditFacts NumFix ExRun TextFacts TextProps TextCut TextLines.

(** Build and run with the text, then a test, evaluated by the kernel. *)
Definition xt_test (m0 : model fix_) (test : model fix_ -> list (line fix_) -> res (model fix_ * list msg) -> bool) : bool :=
  match build argsort_ins m0 with
  | Ok m1 => let r := run_t argsort_fx gauss m1 40 in test m1 (fst r) (snd r)
  | _ => false
  end.
Lemma xt_tested m0 test : xt_test m0 test = true ->
  exists m1 T r, build argsort_ins m0 = Ok m1 /\ run_t argsort_fx gauss m1 40 = (T, r) /\ test m1 T r = true.
Proof.
  unfold xt_test. destruct (build _ _) as [m1| |]; try discriminate. intros H. exists m1, (fst (run_t argsort_fx gauss m1 40)), (snd (run_t argsort_fx gauss m1 40)).
  split; [reflexivity|]. split; [apply surjective_pairing|exact H].
Qed.
Definition eq_nn (a b : nat * nat) : bool := Nat.eqb (fst a) (fst b) && Nat.eqb (snd a) (snd b).
Lemma eq_nn_ok a b : eq_nn a b = true <-> a = b.
Proof.
  destruct a, b. unfold eq_nn. cbn. rewrite andb_true_iff, !Nat.eqb_eq. split; [intros [-> ->]; reflexivity|intros H; injection H; auto].
Qed.
(** The text before the line of step [k] and from there on. *)
Fixpoint cutoff {F} (k : Z) (t : list (line F)) : list (line F) * list (line F) :=
  match t with
  | [] => ([], [])
  | x :: t' => if match x with LStep j => (j =? k)%Z | _ => false end then ([], t)
               else let r := cutoff k t' in (x :: fst r, snd r)
  end.
Lemma cutoff_app {F} k (t : list (line F)) : fst (cutoff k t) ++ snd (cutoff k t) = t.
Proof. induction t as [|x t IH]; [reflexivity|]. cbn. destruct (match x with LStep j => _ | _ => _ end); [reflexivity|]. cbn. now rewrite IH. Qed.

(** ** C54: the log level changes the text and nothing else *)

(** Recording the text changes nothing: [build_t] and [run_t] have the outcome of
    [build] and [run]. *)
Theorem C54_same {F} `{NF : Num F} argsortZ argsortF solve (m : model F) fuel :
  snd (build_t argsortZ m) = build argsortZ m /\ snd (run_t argsortF solve m fuel) = run argsortF solve m fuel.
Proof. split; [apply build_same|apply run_same]. Qed.
Print Assumptions C54_same.

(** Two log levels [v] <= [v'] at which the parameter table can be printed: [build]
    and [run] have the same outcome, an exception or a model that differs in the
    stored level only, and the text at the lower level is the one at the higher level
    with lines left out. *)
Theorem C54_level {F} `{NF : Num F} argsortZ argsortF solve (m : model F) fuel v v' :
  (v <= v')%Z ->
  (snd (build_t argsortZ (at_level v' m)) = (m' <- snd (build_t argsortZ (at_level v m)) ;; Ok (at_level v' m')) /\
   sub (fst (build_t argsortZ (at_level v m))) (fst (build_t argsortZ (at_level v' m)))) /\
  (printable (m_set m) v' ->
   snd (run_t argsortF solve (at_level v' m) fuel) =
     ('(m', out) <- snd (run_t argsortF solve (at_level v m) fuel) ;; Ok (at_level v' m', out)) /\
   sub (fst (run_t argsortF solve (at_level v m) fuel)) (fst (run_t argsortF solve (at_level v' m) fuel))).
Proof. intros Hv. split; [now apply build_below|]. intros Hp. now apply run_below. Qed.
Print Assumptions C54_level.

(** The parameter table cannot always be printed: with an initial control component
    the same session returns at level 1 and raises TypeError at level 2. *)
Theorem C54_level_refuted : exists (m1 : model fix_) m2 out,
  build argsort_ins (xr_at (xr_settings 8 8 false true (Some 3%Z) 8 2 1)) = Ok m1 /\
  snd (run_t argsort_fx gauss (at_level 1 m1) 40) = Ok (m2, out) /\
  snd (run_t argsort_fx gauss (at_level 2 m1) 40) = Err TypeError.
Proof.
  destruct (xt_tested (xr_at (xr_settings 8 8 false true (Some 3%Z) 8 2 1)) (fun m1 T r =>
    match snd (run_t argsort_fx gauss (at_level 1 m1) 40), snd (run_t argsort_fx gauss (at_level 2 m1) 40) with Ok _, Err TypeError => true | _, _ => false end))
    as (m1 & T & r & Eb & _ & H); [vm_cast_no_check (eq_refl true)|].
  exists m1. destruct (snd (run_t argsort_fx gauss (at_level 1 m1) 40)) as [[m2 out]| |]; try discriminate. exists m2, out.
  destruct (snd (run_t argsort_fx gauss (at_level 2 m1) 40)) as [|[]|]; try discriminate. auto.
Qed.
Print Assumptions C54_level_refuted.

(** Without a level and without step control, a run of one step prints nothing unless
    it prints an ERROR, EXIT or recycling line, whatever its outcome. *)
Theorem C54_silent {F} `{NF : Num F} argsortF solve (m : model F) fuel :
  (s_log (m_set m) <= 0)%Z -> s_stepcontrol (m_set m) = false -> (s_nsteps (m_set m) <= 1)%Z ->
  messages_in (fst (run_t argsortF solve m fuel)) = [] -> fst (run_t argsortF solve m fuel) = [].
Proof. intros H1 H2 H3 H. destruct (run_paired argsortF solve m fuel H1 H2 H3) as [E|E]; [exact E|contradiction]. Qed.
Print Assumptions C54_silent.

(** With step control a run without a level does print the factors by which the
    allowed change grows. *)
Theorem C54_silent_refuted : exists (m1 m2 : model fix_) out fac rest,
  build argsort_ins (xr_at (xr_settings 6 6 true false None 8 3 1)) = Ok m1 /\ s_log (m_set m1) = 0%Z /\
  run_t argsort_fx gauss m1 40 = (LIncrease fac :: rest, Ok (m2, out)) /\ out = [MIncr; MIncr; MIncr].
Proof.
  destruct (xt_tested (xr_at (xr_settings 6 6 true false None 8 3 1)) (fun m1 T r =>
    (s_log (m_set m1) =? 0)%Z && match T, r with LIncrease _ :: _, Ok (_, [MIncr; MIncr; MIncr]) => true | _, _ => false end))
    as (m1 & T & r & Eb & E & H); [vm_cast_no_check (eq_refl true)|].
  apply andb_prop in H as [H1 H2]. destruct T as [|[] rest]; try discriminate. destruct r as [[m2 out]| |]; try discriminate.
  exists m1, m2, out, fac, rest. split; [exact Eb|]. split; [now apply Z.eqb_eq|]. split; [exact E|].
  destruct out as [|[] [|[] [|[] [|]]]]; try discriminate. reflexivity.
Qed.
Print Assumptions C54_silent_refuted.

(** ** C55: the text tells the results *)

(** A run that returned, step by step [logs]: the ERROR, EXIT, recycling and increment
    lines are its messages in order (without a level those of increments are left
    out).  With a level of at least 1, the steps and, within each step, the recorded
    increments are numbered from 1, the final load factors shown are those of the
    results in order, and the text falls into parts, one per result, that show it and
    end their rows of iterations below the tolerance unless there is an ERROR line
    (there are such rows, except after a predictor that skips the increment).
    With a level of at least 2, the results are listed after each step. *)
Theorem C55_text {F} `{NF : Num F} argsortF solve (m : model F) fuel T m' out :
  run_t argsortF solve m fuel = (T, Ok (m', out)) -> (0 < s_nsteps (m_set m))%Z ->
  exists logs, ran_as argsortF solve m fuel m' out logs /\
    messages_in T = heard (s_log (m_set m)) out /\
    (if (0 <? s_log (m_set m))%Z
     then steps_in T = map (fun k => 1 + Z.of_nat k)%Z (seq 0 (length logs)) /\
          increments_in T = concat (map (fun lg => map (fun n => 1 + Z.of_nat n)%Z (seq 0 (length (lg_recs lg)))) logs) /\
          finals_in T = map a_lpf (concat (map lg_results logs)) /\
          shows_all (pow10neg (s_ftol (m_set m))) (s_jpre (m_set m) = true /\ s_jfixed (m_set m) = false) T
            (concat (map lg_recs logs))
     else steps_in T = [] /\ increments_in T = [] /\ finals_in T = []) /\
    writes_in T = (if (1 <? s_log (m_set m))%Z
      then concat (map (fun lg => map (fun p => (fst p, length (lg_results lg), snd p))
             (combine (seq 1 (length (lg_results lg))) (map a_lpf (lg_results lg)))) logs)
      else []).
Proof.
  intros H Hn. destruct (run_text argsortF solve m fuel T m' out H Hn) as (logs & Hr & H1 & H2 & H3 & H4 & H5 & H6).
  exists logs. split; [exact Hr|]. split.
  { rewrite H1. f_equal. destruct Hr as (_ & _ & _ & u & nh & eh & fh & r0 & rest & u' & Hr). symmetry. apply Hr. }
  split.
  - unfold above_Z, above_F in *. destruct (Z.ltb_spec 0 (s_log (m_set m))) as [Hv|Hv]; [|auto].
    split; [exact H3|]. split; [exact H4|]. split; [exact H5|]. apply parts_shows. auto.
  - rewrite H2. destruct (1 <? _)%Z; [|reflexivity]. f_equal. apply map_ext. intros lg. unfold numbered. now rewrite map_length.
Qed.
Print Assumptions C55_text.

(** However a run ends, every line printed is true of the settings: the parameter
    table shows them, steps and iterations are within the numbers set, and step widths
    are reduced and increased by the factors set, and only with step control. *)
Theorem C55_lines {F} `{NF : Num F} argsortF solve (m : model F) fuel T outcome :
  run_t argsortF solve m fuel = (T, outcome) -> forall l, In l T -> line_true (m_set m) l.
Proof.
  intros H. pose proof (run_tells argsortF solve m fuel) as G. rewrite H in G. apply Forall_forall. exact G.
Qed.
Print Assumptions C55_lines.

(** The lines about the step width tell what became of it: one call of the step
    control prints at most one of the two and the new limits are the old ones times
    the factor shown (divided by reduce, printed as 1/reduce).  Without such a line the
    limits are as before, or they were cut down to maxfac times the initial ones,
    which is not printed. *)
Theorem C55_step_width {F} `{NF : Num F} cfg dxmax dxmax0 j j0 z ok b n nfev T (d' : list F) z' b' changed :
  dxmax_control_t cfg dxmax dxmax0 j j0 z ok b n nfev = (T, Ok (d', z', b', changed)) ->
  (forall v, In (LReduce v) T -> ok = false /\ v = fdiv f1 (cf_reduce cfg) /\
     d' = map (fun x => fdiv x (cf_reduce cfg)) dxmax /\ changed = true) /\
  (forall v, In (LIncrease v) T -> ok = true /\ d' = map (fun x => fmul x v) dxmax /\ changed = true) /\
  ((forall v, ~ In (LReduce v) T) -> (forall v, ~ In (LIncrease v) T) ->
     d' = dxmax /\ changed = false \/
     ok = true /\ j = j0 /\ changed = true /\ d' = map (fun x => fmul x (cf_maxfac cfg)) dxmax0).
Proof. apply step_width. Qed.
Print Assumptions C55_step_width.

(** A run that prints both: a reduction after an increment that did not converge and
    an increase. *)
Example C55_lines_meets : exists (m1 : model fix_) T outcome v w,
  build argsort_ins (xr_at (xr_settings 8 8 false false None 3 8 1)) = Ok m1 /\
  run_t argsort_fx gauss m1 40 = (T, outcome) /\ In (LReduce v) T /\ In (LIncrease w) T.
Proof.
  destruct (xt_tested (xr_at (xr_settings 8 8 false false None 3 8 1))
    (fun _ T _ => existsb (fun l => match l with LReduce _ => true | _ => false end) T &&
                  existsb (fun l => match l with LIncrease _ => true | _ => false end) T)) as (m1 & T & r & Hb & Hr & Ht);
    [vm_compute; reflexivity|].
  apply andb_true_iff in Ht. destruct Ht as [H1 H2].
  apply existsb_exists in H1, H2. destruct H1 as (l1 & I1 & H1), H2 as (l2 & I2 & H2).
  destruct l1; try discriminate. destruct l2; try discriminate. eauto 10.
Qed.

(** ** C56: what was printed stands, however the run ends *)

(** Whatever the outcome of a run with a log level, take a step line in its text, the
    text [T2] of this step and [q] increments fewer than it begins.  The same model
    with the later steps left out and [q] increments in this step runs normally and
    shows exactly the numbers and final load factors of the increments before. *)
Theorem C56_stands {F} `{NF : Num F} argsortF solve (m : model F) fuel T outcome K q T1 T2 T3 :
  (0 < s_log (m_set m))%Z -> run_t argsortF solve m fuel = (T, outcome) ->
  T = T1 ++ LStep (1 + Z.of_nat K) :: T2 ++ T3 ->
  steps_in T2 = [] -> (T3 = [] \/ exists k t, T3 = LStep k :: t) ->
  (0 < q < length (increments_in T2))%nat ->
  exists T' m' out,
    run_t argsortF solve (with_settings (cut K (Z.of_nat q) (m_set m)) m) fuel = (T', Ok (m', out)) /\
    finals_in T' = finals_in T1 ++ firstn q (finals_in T2) /\
    increments_in T' = increments_in T1 ++ firstn q (increments_in T2) /\
    length (firstn q (finals_in T2)) = q.
Proof. intros Hv H HT Hs H3 [Hq0 Hq]. eapply run_cut; eauto. rewrite H. exact HT. Qed.
Print Assumptions C56_stands.

(** ** Examples *)

(** A two step run at level 2: its text begins the steps 1 and 2 with three increments
    each and lists three results after each step. *)
Definition xt_settings (n : Z) : settings fix_ := with_log 2 (xr_settings 6 6 true false None 8 3 n).
Example C55_meets : exists m1 T m2 out,
  build argsort_ins (xr_at (xt_settings 2)) = Ok m1 /\ run_t argsort_fx gauss m1 40 = (T, Ok (m2, out)) /\
  (0 < s_nsteps (m_set m1))%Z /\ steps_in T = [1; 2]%Z /\ increments_in T = [1; 2; 3; 1; 2; 3]%Z /\
  length (finals_in T) = 6%nat /\ map fst (writes_in T) = [(1, 3); (2, 3); (3, 3); (1, 3); (2, 3); (3, 3)]%nat /\
  printable (m_set m1) 2.
Proof.
  destruct (xt_tested (xr_at (xt_settings 2)) (fun m1 T r =>
    (s_nsteps (m_set m1) =? 2)%Z && eq_list Z.eqb (steps_in T) [1; 2]%Z && eq_list Z.eqb (increments_in T) [1; 2; 3; 1; 2; 3]%Z &&
    Nat.eqb (length (finals_in T)) 6 && eq_list eq_nn (map fst (writes_in T)) [(1, 3); (2, 3); (3, 3); (1, 3); (2, 3); (3, 3)]%nat &&
    match s_j0 (m_set m1) with None => true | _ => false end && negb (feqb (s_reduce (m_set m1)) f0) && match r with Ok _ => true | _ => false end))
    as (m1 & T & r & Eb & E & H); [vm_cast_no_check (eq_refl true)|].
  repeat (apply andb_prop in H as [H ?]). destruct r as [[m2 out]| |]; try discriminate. exists m1, T, m2, out.
  apply Z.eqb_eq in H. rewrite H. split; [exact Eb|]. split; [exact E|]. split; [lia|].
  split; [apply (eq_list_ok Z.eqb Z.eqb_eq); assumption|]. split; [apply (eq_list_ok Z.eqb Z.eqb_eq); assumption|].
  split; [now apply Nat.eqb_eq|]. split; [apply (eq_list_ok eq_nn eq_nn_ok); assumption|].
  right. destruct (s_j0 (m_set m1)); [discriminate|]. split; [reflexivity|]. intros _. now apply negb_true_iff.
Qed.

(** Three steps with loads for two: the run raises in step 3, after six increments of
    which [C56_stands] covers the first two of each step. *)
Example C56_meets : exists m1 T T1 T2 T3,
  build argsort_ins (xr_at (xt_settings 3)) = Ok m1 /\ (0 < s_log (m_set m1))%Z /\
  run_t argsort_fx gauss m1 40 = (T, Err ValueError) /\
  T = T1 ++ LStep (1 + Z.of_nat 1) :: T2 ++ T3 /\ steps_in T2 = [] /\ (exists k t, T3 = LStep k :: t) /\
  length (increments_in T2) = 3%nat /\ length (finals_in T1) = 3%nat.
Proof.
  destruct (xt_tested (xr_at (xt_settings 3)) (fun m1 T r =>
    (0 <? s_log (m_set m1))%Z && match r with Err ValueError => true | _ => false end &&
    let (T1, U) := cutoff 2 T in
    match U with
    | LStep 2 :: U' => let (T2, T3) := cutoff 3 U' in
        eq_list Z.eqb (steps_in T2) [] && match T3 with LStep _ :: _ => true | _ => false end &&
        Nat.eqb (length (increments_in T2)) 3 && Nat.eqb (length (finals_in T1)) 3
    | _ => false
    end))
    as (m1 & T & r & Eb & E & H); [vm_cast_no_check (eq_refl true)|].
  apply andb_prop in H as [H HT]. apply andb_prop in H as [H1 H2]. destruct r as [|[]|]; try discriminate.
  pose proof (cutoff_app 2 T) as HA. destruct (cutoff 2 T) as [T1 U]. cbn [fst snd] in HA.
  destruct U as [|[] U']; try discriminate. destruct k as [|[[]|[]|]|]; try discriminate.
  pose proof (cutoff_app 3 U') as HB. destruct (cutoff 3 U') as [T2 T3]. cbn [fst snd] in HB.
  apply andb_prop in HT as [HT H5]. apply andb_prop in HT as [HT H4]. apply andb_prop in HT as [H6 H3].
  exists m1, T, T1, T2, T3. split; [exact Eb|]. split; [now apply Z.ltb_lt|]. split; [exact E|].
  split; [rewrite <- HA, <- HB; reflexivity|]. split; [apply (eq_list_ok Z.eqb Z.eqb_eq); assumption|].
  split; [destruct T3 as [|[] ?]; try discriminate; eauto|]. split; now apply Nat.eqb_eq.
Qed.

(** A session to which [C54_silent] applies and that prints nothing. *)
Example C54_silent_meets : exists m1 m2 out,
  build argsort_ins (xr_at (Settings (Same 2%Z) false (q 4 1) (q 1 100) (q 1 2) (q 8 1) (q 5 4) 6%Z 6%Z 4%Z 8%Z
      (q 1 200) (q 1 20) (Same (0%Z, None)) 0%Z None false false 0%Z 1%Z)) = Ok m1 /\
  (s_log (m_set m1) <= 0)%Z /\ s_stepcontrol (m_set m1) = false /\ (s_nsteps (m_set m1) <= 1)%Z /\
  run_t argsort_fx gauss m1 40 = ([], Ok (m2, out)) /\ out = [MIncr; MIncr].
Proof.
  match goal with |- exists m1 m2 out, build ?a ?m = Ok m1 /\ _ =>
    destruct (xt_tested m (fun m1 T r => (s_log (m_set m1) <=? 0)%Z && negb (s_stepcontrol (m_set m1)) && (s_nsteps (m_set m1) <=? 1)%Z &&
      match T, r with [], Ok (_, [MIncr; MIncr]) => true | _, _ => false end)) as (m1 & T & r & Eb & E & H); [vm_cast_no_check (eq_refl true)|] end.
  apply andb_prop in H as [H H4]. apply andb_prop in H as [H H3]. apply andb_prop in H as [H1 H2].
  destruct T; try discriminate. destruct r as [[m2 out]| |]; try discriminate. exists m1, m2, out.
  split; [exact Eb|]. split; [now apply Z.leb_le|]. split; [now apply negb_true_iff|]. split; [now apply Z.leb_le|]. split; [exact E|].
  destruct out as [|[] [|[] [|]]]; try discriminate. reflexivity.
Qed.
