(** * Properties of Model.run

    C26 equilibrium of accepted increments, C27 failed increments, C28 and C29
    increments and step limits of a run, C31 locked control component, C32 result
    list, C33 load history, C34 running twice, C35 reactions, C42 consistency of
    the results.  Vocabulary: SpecRun.v, SpecRunR.v, SpecSolver.v, SpecStep.v,
    SpecMech.v, SpecMechR.v, SpecBuild.v. *)
From Coq Require Import List ZArith Bool Arith Lia Permutation Reals Lra.
Import ListNotations.
From Verif Require Import Num NumR NumFix TolFacts Vec Handlers Material Analysis Truss Equil Solver Run ListFacts EditFacts SpecMech SpecMechR
  SpecBuild BuildFacts BuildProps SpecSolver SpecStep SolverFacts PathFacts StepFacts SpecState FrameFacts SpecRun SpecRunR RunFacts RecFacts ReachFacts
  SessionFacts MechFacts RunProps ReactFacts ExRun PropSolver PropMech.

(** ** C32 the list of results *)
(** After build and run, the results are the undeformed state followed by the
    increments recorded in the steps, in order; there is one end load factor per
    step, that of its last increment; the printed lines are those of the steps. *)
Theorem C32_results : forall F (NF : Num F) argsortZ argsortF solve m ns ms bs fs m1 fuel m2 out,
  argsort_ok argsortZ -> described m ns ms bs fs -> build argsortZ m = Ok m1 ->
  run argsortF solve m1 fuel = Ok (m2, out) -> (0 < s_nsteps (m_set m1))%Z ->
  exists logs r0 u2, ran_as argsortF solve m1 fuel m2 out logs /\ m_built m2 = Some u2 /\
    Z.of_nat (length logs) = s_nsteps (m_set m1) /\
    a_U r0 = zeros3 (length ns) /\ a_lpf r0 = f0 /\
    u_R u2 = r0 :: concat (map lg_results logs) /\
    length (u_lpf_end u2) = length logs /\
    (forall k lg rs x a, nth_error logs k = Some lg -> lg_recs lg = rs ++ [(x, a)] ->
       nth_error (u_lpf_end u2) k = Some (a_lpf a)) /\
    out = concat (map lg_out logs).
Proof.
  intros F NF argsortZ argsortF solve m ns ms bs fs m1 fuel m2 out HA Hd Hb Hr Hn.
  destruct (run_ran_as argsortF solve _ _ _ _ Hr Hn) as (logs & HL). exists logs.
  pose proof HL as (_ & Hlen & _ & u & nh & eh & fh & r0 & rest & u2 & B1 & B2 & B3 & B4 & B5 & B6 & _ & B8 & B9 & B10 & _).
  destruct (build_reached _ _ _ _ _ _ _ HA Hd Hb) as (_ & _ & _ & u' & _ & _ & _ & _ & Eu & _ & _ & _ & _ & _ & _ & Hle & _).
  assert (u' = u) by congruence. subst u'.
  destruct (build_inv _ _ _ Hb) as (nh0 & eh0 & nh' & bh & fh' & D0 & D1 & an & E1 & _ & _ & _ & _ & _ & _ & _ & _ & Han & Em).
  assert (HR : u_R u = [set_lpf f0 (set_fconst (repeat (repeat f0 3) (length (n_labels nh0))) (set_forces (e_rows fh') an))]).
  { rewrite Em in B1. cbn in B1. injection B1 as <-. reflexivity. }
  rewrite HR in B5. injection B5 as E5 E6. rewrite HR in B8. cbn [removelast app] in B8.
  exists r0, u2. rewrite Hle in B9. cbn [app] in B9.
  repeat match goal with |- _ /\ _ => split end; auto.
  - rewrite <- E5. cbn. unfold analysis_build in Han. apply bind_ok in Han. destruct Han as (ur & _ & Han). injection Han as <-. cbn.
    destruct Hd as (Hns & _). rewrite E1 in Hns. destruct Hns as [-> _]. rewrite map_length. reflexivity.
  - rewrite <- E5. reflexivity.
  - rewrite B9. apply ends_length.
  - intros k lg rs x a Hk Hrec. rewrite B9. generalize (a_lpf (last (u_R u) r0)) as pl. clear - Hk Hrec.
    revert k Hk. induction logs as [|l logs IH]; intros k Hk pl; [destruct k; discriminate|].
    destruct k as [|k]; cbn [nth_error ends] in *.
    + injection Hk as ->. unfold lg_end. rewrite Hrec, rev_app_distr. reflexivity.
    + apply IH, Hk.
Qed.
Print Assumptions C32_results.

(** With no step at all the undeformed state is listed twice. *)
Theorem C32_no_steps : forall F (NF : Num F) argsortF solve m fuel m' out u r0 rest,
  run argsortF solve m fuel = Ok (m', out) -> (s_nsteps (m_set m) <= 0)%Z ->
  m_built m = Some u -> u_R u = r0 :: rest ->
  exists u', m_built m' = Some u' /\ u_R u' = r0 :: r0 :: rest.
Proof.
  intros F NF argsortF solve m fuel m' out u r0 rest H Hn Hu HR. apply run_ok in H.
  destruct H as (u1 & nh & eh & fh & r1 & rest1 & u' & A1 & A2 & A3 & A4 & A5 & Em & _ & _ & HH).
  destruct (Z.leb_spec (s_nsteps (m_set m)) 0); [|lia]. destruct HH as (B1 & _).
  assert (u1 = u) by congruence. subst u1. exists u'. rewrite Em. split; [reflexivity|].
  rewrite B1, HR. congruence.
Qed.
Print Assumptions C32_no_steps.

(** ** C33 the load history *)
(** The first step starts from the state of the analysis object, every other one
    from the last recorded increment of the step before: same displacements and
    state variables, load factor 0. *)
Theorem C33_start : forall F (NF : Num F) argsortF solve m1 fuel m2 out logs k lg,
  ran_as argsortF solve m1 fuel m2 out logs -> nth_error logs k = Some lg ->
  exists u1 prev, m_built m1 = Some u1 /\
    (k = 0 -> prev = u_an u1) /\
    (forall k' lgp, k = S k' -> nth_error logs k' = Some lgp -> prev = lg_final lgp) /\
    a_U (lg_start lg) = a_U prev /\ a_U0 (lg_start lg) = a_U0 prev /\
    a_Ured (lg_start lg) = a_Ured prev /\ a_state (lg_start lg) = a_state prev /\
    a_lpf (lg_start lg) = f0 /\ a_step (lg_start lg) = (1 + Z.of_nat k)%Z.
Proof.
  intros F NF argsortF solve m1 fuel m2 out logs k lg (_ & _ & _ & u & nh & eh & fh & r0 & rest & u' & B1 & _ & _ & _ & _ & _ & Hst & _) Hk.
  destruct (steps_nth argsortF solve _ _ _ _ _ _ _ _ _ Hst k lg Hk) as (prev' & (Hs & _ & _ & _ & E) & _ & Hp).
  rewrite E. destruct k as [|k'].
  - subst prev'. exists u, (u_an u). split; [exact B1|]. split; [reflexivity|]. split; [discriminate|].
    cbn. rewrite Hs. repeat split; reflexivity.
  - destruct Hp as (lgp & Hk' & ->). exists u, (lg_final lgp). split; [exact B1|]. split; [discriminate|].
    split; [intros k2 l2 E2 Hl2; injection E2 as <-; congruence|].
    cbn. rewrite Hs. repeat split; reflexivity.
Qed.
Print Assumptions C33_start.

(** After build and run: in every result of step [k] (counted from 0) the
    reference force of a node is block [k] of its load row, and the constant force
    is the sum over the steps before of end load factor times block ([w] is the
    number of columns of the load table). *)
Theorem C33_loads : forall F (NF : Num F) argsortZ argsortF solve m ns ms bs fs m1 fuel m2 out logs,
  argsort_ok argsortZ -> described m ns ms bs fs -> build argsortZ m = Ok m1 ->
  ran_as argsortF solve m1 fuel m2 out logs ->
  exists nh u2 w, m_nodes m2 = Some nh /\ m_built m2 = Some u2 /\
    (forall fh, m_forces m = Some fh -> e_width fh = w) /\
    forall k lg a, nth_error logs k = Some lg -> a = lg_start lg \/ In a (lg_results lg) ->
    a_step a = (1 + Z.of_nat k)%Z /\
    forall p l, nth_error (n_labels nh) p = Some l ->
    exists fp cp, nth_error (a_forces a) p = Some fp /\ nth_error (a_fconst a) p = Some cp /\
      forall d, d < 3 -> 3 * k + d < w ->
        nth_error fp d = Some (nth (3 * k + d) (row_for fs (repeat f0 w) l) f0) /\
        nth_error cp d = Some (history (u_lpf_end u2) (row_for fs (repeat f0 w) l) k d).
Proof.
  intros F NF argsortZ argsortF solve m ns ms bs fs m1 fuel m2 out logs HA Hd Hb HL.
  pose proof HL as (Hrun & Hlen & _ & u & nh & eh & fh & r0 & rest & u2 & B1 & B2 & B3 & B4 & B5 & B6 & Hst & _ & B9 & _).
  destruct (build_reached _ _ _ _ _ _ _ HA Hd Hb)
    as (nhb & ehb & fhb & ub & ns' & En & Ee & Ef & Eu & Hns' & Hp & Hw & Hfa & Htr & (r0' & _ & _ & _) & Hle & _ & _ & _ & _ & _ & Hre).
  assert (nhb = nh) by congruence. assert (ehb = eh) by congruence. assert (fhb = fh) by congruence. assert (ub = u) by congruence.
  subst nhb ehb fhb ub. rewrite Hle in B9. cbn [app] in B9. rewrite Hle in Hst.
  assert (En2 : m_nodes m2 = Some nh).
  { apply run_ok in Hrun. destruct Hrun as (? & ? & ? & ? & ? & ? & ? & _ & _ & _ & _ & _ & -> & _). exact B2. }
  exists nh, u2, (e_width fh). split; [exact En2|]. split; [exact B6|]. split; [exact Hw|].
  intros k lg a Hk Ha.
  destruct (steps_nth argsortF solve _ _ _ _ _ _ _ _ _ Hst k lg Hk) as (prev' & Hs & Hr & _). cbn [Nat.add app] in Hs, Hr.
  set (pl := a_lpf (last (u_R u) r0)) in *.
  assert (Hlt : k < length logs) by (apply nth_error_Some; congruence).
  assert (Hsame : a_step a = a_step (lg_start lg) /\ a_forces a = a_forces (lg_start lg) /\ a_fconst a = a_fconst (lg_start lg)).
  { destruct Ha as [->|Ha]; [auto|]. apply step_any in Hr. destruct Hr as (incs & xl & Hr).
    unfold lg_results in Ha. apply in_map_iff in Ha. destruct Ha as ([x a'] & <- & Hin). cbn [snd].
    eapply (along_impl _ (fun _ _ _ _ => True) (fun _ a' => a_step a' = a_step (lg_start lg) /\
       a_forces a' = a_forces (lg_start lg) /\ a_fconst a' = a_fconst (lg_start lg))) in Hr.
    - destruct Hr as (_ & Hr & _). exact (Hr _ _ Hin).
    - auto.
    - intros x0 a0 x1 a1 (G1 & G2 & G3) Hka. apply kany_same in Hka.
      destruct Hka as (Q1 & _ & _ & _ & Q5 & Q6 & _). split; [|exact Logic.I]. repeat split; congruence. }
  destruct Hsame as (-> & -> & ->). destruct Hs as (E1 & Hsup & E3 & _). split; [exact E1|].
  intros p l Hpl. rewrite Ef in Hfa. destruct Hfa as (F1 & F2 & F3).
  rewrite En in Hns'. destruct Hns' as [N1 _].
  assert (Hrow : nth_error (e_rows fh) p = Some (row_for fs (repeat f0 (e_width fh)) l)).
  { rewrite F2. unfold rows_for. rewrite map_map, <- N1. cbn [snd]. rewrite nth_error_map, Hpl. reflexivity. }
  set (row := row_for fs (repeat f0 (e_width fh)) l) in *.
  assert (Hwr : length row = e_width fh).
  { rewrite Forall_forall in F3. apply F3. eapply nth_error_In, Hrow. }
  apply (superposed_firstn _ (ends pl logs)) in Hsup; [|rewrite ends_length; lia].
  destruct Hsup as (_ & Hsup). destruct (Hsup _ _ Hrow) as (cp & C1 & C2 & C3).
  exists (firstn 3 (skipn (3 * k) row)), cp. split; [|split; [exact C1|]].
  - rewrite E3. unfold columns. rewrite nth_error_map, Hrow. reflexivity.
  - intros d Hd3 Hdw.
    assert (Hd' : d < length (firstn 3 (skipn (3 * k) row))) by (rewrite firstn_length, skipn_length; lia).
    split; [|rewrite B9; apply C3; lia].
    rewrite (nth_error_nth' _ f0 Hd'). f_equal.
    rewrite <- (firstn_skipn (3 * k) row) at 2. rewrite app_nth2; rewrite firstn_length, Nat.min_l by lia; [|lia].
    replace (3 * k + d - 3 * k) with d by lia.
    rewrite <- (firstn_skipn 3 (skipn (3 * k) row)) at 2. rewrite app_nth1 by lia. reflexivity.
Qed.
Print Assumptions C33_loads.

(** ** C34 running twice *)
(** Building again after any number of runs: everything but the settings is as
    after the first build, so a run from there depends on nothing that ran before. *)
Theorem C34_rebuild : forall F (NF : Num F) argsortZ argsortF solve P m ns ms bs fs m1 mb,
  argsort_ok argsortZ -> described m ns ms bs fs -> session argsortF solve argsortZ P m m1 ->
  build argsortZ m = Ok mb ->
  build argsortZ m1 = Ok (with_settings (m_set m1) mb) /\ s_nstatev (m_set m1) = s_nstatev (m_set mb).
Proof.
  intros F NF argsortZ argsortF solve P m ns ms bs fs m1 mb HA Hd HS Hb.
  split; [eapply rebuild; eassumption|].
  destruct (sound_session _ _ _ _ _ _ _ _ _ _ HA Hd HS) as (mb' & Hb' & Hs).
  assert (mb' = mb) by congruence. subst mb'. apply Hs.
Qed.
Print Assumptions C34_rebuild.

(** With unchanged settings the built model is the same. *)
Theorem C34_same : forall F (NF : Num F) argsortZ argsortF solve P m ns ms bs fs m1 mb,
  argsort_ok argsortZ -> described m ns ms bs fs -> session argsortF solve argsortZ P m m1 ->
  build argsortZ m = Ok mb -> m_set m1 = m_set mb -> build argsortZ m1 = build argsortZ m.
Proof.
  intros F NF argsortZ argsortF solve P m ns ms bs fs m1 mb HA Hd HS Hb E.
  rewrite (rebuild argsortZ argsortF solve _ _ _ _ _ _ _ _ HA Hd HS Hb), Hb, E. destruct mb; reflexivity.
Qed.
Print Assumptions C34_same.

(** A run of a model that was run before: the first result is duplicated, the last
    one overwritten, and the constant forces of the steps use the end load factors
    of the run before. *)
Theorem C34_rerun : forall F (NF : Num F) argsortF solve m1 fuel m2 out logs,
  ran_as argsortF solve m1 fuel m2 out logs ->
  exists u1 u2 fh r0 rest, m_built m1 = Some u1 /\ m_built m2 = Some u2 /\ m_forces m1 = Some fh /\
    u_R u1 = r0 :: rest /\
    u_R u2 = r0 :: removelast (r0 :: rest) ++ concat (map lg_results logs) /\
    (exists new, u_lpf_end u2 = u_lpf_end u1 ++ new /\ length new = length logs) /\
    forall k lg, nth_error logs k = Some lg -> k <= length (u_lpf_end u1) ->
      superposed (e_rows fh) (u_lpf_end u1) k (a_fconst (lg_start lg)).
Proof.
  intros F NF argsortF solve m1 fuel m2 out logs (_ & _ & _ & u & nh & eh & fh & r0 & rest & u' & B1 & _ & _ & B4 & B5 & B6 & Hst & B8 & B9 & _).
  exists u, u', fh, r0, rest. rewrite B5 in B8.
  repeat match goal with |- _ /\ _ => split end; auto.
  { eexists. split; [exact B9|]. apply ends_length. }
  intros k lg Hk Hle.
  destruct (steps_nth argsortF solve _ _ _ _ _ _ _ _ _ Hst k lg Hk) as (prev' & (_ & Hsup & _) & _). cbn [Nat.add] in Hsup.
  eapply superposed_app; [exact Hle|exact Hsup].
Qed.
Print Assumptions C34_rerun.

(** ** C27 failed increments in a run *)
(** Every step of a run: its records are all accepted (or skipped) if no ERROR
    line was printed, otherwise all but the last, which failed. *)
Theorem C27_steps : forall F (NF : Num F) argsortF solve m1 fuel m2 out logs k lg,
  ran_as argsortF solve m1 fuel m2 out logs -> nth_error logs k = Some lg ->
  exists u1 nh eh incs xlimit, m_built m1 = Some u1 /\ m_nodes m1 = Some nh /\ m_elems m1 = Some eh /\
    in_step (s_incs (m_set m1)) k incs /\ in_step (s_xlimit (m_set m1)) k xlimit /\
    let c := ctx_of m1 u1 nh eh in
    records_ok solve (equilibrium c) (stiffness c) (pf_config (m_set m1) xlimit incs) (fun _ _ => True)
      (s_jpre (m_set m1)) (a_Ured (lg_start lg) ++ [f0]) (lg_recs lg) (lg_out lg).
Proof.
  intros F NF argsortF solve m1 fuel m2 out logs k lg (_ & _ & _ & u & nh & eh & fh & r0 & rest & u' & B1 & B2 & B3 & _ & _ & _ & Hst & _) Hk.
  destruct (steps_nth argsortF solve _ _ _ _ _ _ _ _ _ Hst k lg Hk) as (prev' & _ & (incs & xl & pf & H1 & H2 & H3 & H4 & H5) & _).
  cbn [Nat.add] in *. exists u, nh, eh, incs, xl. do 5 (split; [assumption|]). cbv zeta.
  apply C25_records in H3. destruct H3 as (recs & E & H). rewrite H4 in E. injection E as <-. rewrite <- H5. exact H.
Qed.
Print Assumptions C27_steps.

(** After an ERROR line the failed increment stays in the results and the next
    step starts from it. *)
Theorem C27_failed_in_results : forall F (NF : Num F) argsortF solve m1 fuel m2 out logs k lg e,
  ran_as argsortF solve m1 fuel m2 out logs -> nth_error logs k = Some lg ->
  In e (lg_out lg) -> error_line e ->
  exists recs x a u2 c incs xlimit, lg_recs lg = recs ++ [(x, a)] /\ m_built m2 = Some u2 /\ In a (u_R u2) /\
    failed solve (equilibrium c) (stiffness c) (pf_config (m_set m1) xlimit incs) (fun _ _ => True)
      (last (map fst recs) (a_Ured (lg_start lg) ++ [f0])) x a /\
    (forall lg', nth_error logs (S k) = Some lg' ->
       a_U (lg_start lg') = a_U a /\ a_Ured (lg_start lg') = a_Ured a).
Proof.
  intros F NF argsortF solve m1 fuel m2 out logs k lg e HL Hk He Hl.
  destruct (C27_steps _ _ _ _ _ _ _ _ _ _ _ HL Hk) as (u & nh & eh & incs & xl & B1 & B2 & B3 & _ & _ & H). cbv zeta in H.
  pose proof HL as (_ & _ & _ & u0 & _ & _ & _ & r0 & rest & u' & _ & _ & _ & _ & _ & B6 & _ & B8 & _).
  destruct H as [(_ & Hn)|(rs & x & a & ms & e' & Hr & _ & Hf & _)]; [destruct (Hn _ He Hl)|].
  exists rs, x, a, u', (ctx_of m1 u nh eh), incs, xl.
  split; [exact Hr|]. split; [exact B6|]. split.
  { rewrite B8. right. apply in_app_iff. right. apply in_concat. exists (lg_results lg). split.
    - apply in_map, (nth_error_In _ _ Hk).
    - unfold lg_results. rewrite Hr, map_app. apply in_app_iff. right. left. reflexivity. }
  split; [exact Hf|]. intros lg' Hk'.
  destruct (C33_start _ _ _ _ _ _ _ _ _ _ _ HL Hk') as (_ & prev & _ & _ & Hp & E1 & _ & E2 & _).
  specialize (Hp _ _ eq_refl Hk). unfold lg_final in Hp. rewrite Hr, last_last in Hp. cbn [snd] in Hp. subst prev. auto.
Qed.
Print Assumptions C27_failed_in_results.

(** ** C28 number of increments in a run *)
Theorem C28_run : forall F (NF : Num F) argsortF solve m1 fuel m2 out logs k lg,
  ran_as argsortF solve m1 fuel m2 out logs -> nth_error logs k = Some lg ->
  exists incs xlimit, in_step (s_incs (m_set m1)) k incs /\ in_step (s_xlimit (m_set m1)) k xlimit /\
    (Z.of_nat (length (lg_recs lg)) <= Z.max 0 incs)%Z /\
    (forall i m, xlimit = (i, Some m) -> forall x a, In (x, a) (removelast (lg_recs lg)) ->
       exists xi, py_get x (i - 1) = Ok xi /\ fltb m (fabs xi) = false) /\
    ((Z.of_nat (length (lg_recs lg)) < incs)%Z ->
       (exists e, In e (lg_out lg) /\ error_line e) \/
       (exists rs x a i m xi, lg_recs lg = rs ++ [(x, a)] /\ xlimit = (i, Some m) /\
          py_get x (i - 1) = Ok xi /\ fltb m (fabs xi) = true)).
Proof.
  intros F NF argsortF solve m1 fuel m2 out logs k lg (_ & _ & _ & u & nh & eh & fh & r0 & rest & u' & B1 & B2 & B3 & _ & _ & _ & Hst & _) Hk.
  destruct (steps_nth argsortF solve _ _ _ _ _ _ _ _ _ Hst k lg Hk) as (prev' & _ & (incs & xl & pf & H1 & H2 & H3 & H4 & H5) & _).
  cbn [Nat.add] in *. exists incs, xl. do 2 (split; [assumption|]).
  apply C28_increments in H3. destruct H3 as (recs & E & C1 & C2 & C3). rewrite H4 in E. injection E as <-. rewrite H5 in C3.
  split; [exact C1|]. split.
  - intros i m Hx. apply C2. cbn. congruence.
  - intros Hl. destruct (C3 Hl) as [C|(rs & x & a & i & m & xi & Q1 & Q2 & Q3)]; [now left|right].
    exists rs, x, a, i, m, xi. split; [exact Q1|]. split; [|exact Q3]. cbn in Q2. congruence.
Qed.
Print Assumptions C28_run.

(** The same from a call of [run]: it has [nsteps] steps, and step k obeys entry
    k of the settings. *)
Theorem C28_steps : forall F (NF : Num F) argsortF solve m1 fuel m2 out,
  run argsortF solve m1 fuel = Ok (m2, out) -> (0 < s_nsteps (m_set m1))%Z ->
  exists logs, ran_as argsortF solve m1 fuel m2 out logs /\ Z.of_nat (length logs) = s_nsteps (m_set m1) /\
    forall k lg, nth_error logs k = Some lg ->
    exists incs xlimit, in_step (s_incs (m_set m1)) k incs /\ in_step (s_xlimit (m_set m1)) k xlimit /\
    (Z.of_nat (length (lg_recs lg)) <= Z.max 0 incs)%Z /\
    (forall i m, xlimit = (i, Some m) -> forall x a, In (x, a) (removelast (lg_recs lg)) ->
       exists xi, py_get x (i - 1) = Ok xi /\ fltb m (fabs xi) = false) /\
    ((Z.of_nat (length (lg_recs lg)) < incs)%Z ->
       (exists e, In e (lg_out lg) /\ error_line e) \/
       (exists rs x a i m xi, lg_recs lg = rs ++ [(x, a)] /\ xlimit = (i, Some m) /\
          py_get x (i - 1) = Ok xi /\ fltb m (fabs xi) = true)).
Proof.
  intros F NF argsortF solve m1 fuel m2 out Hr Hn.
  destruct (run_ran_as argsortF solve _ _ _ _ Hr Hn) as (logs & HL). exists logs. split; [exact HL|].
  split; [exact (proj1 (proj2 HL))|]. intros k lg Hk. exact (C28_run _ _ _ _ _ _ _ _ _ _ _ HL Hk).
Qed.
Print Assumptions C28_steps.

(** ** C31 without j_fixed the initial control component is not used *)
Theorem C31_j0_ignored : forall F (NF : Num F) argsortF solve m fuel j,
  s_jfixed (m_set m) = false -> (s_log (m_set m) <= 1)%Z ->
  run argsortF solve (with_settings (with_j0 j (m_set m)) m) fuel =
  (r <- run argsortF solve m fuel ;; Ok (with_settings (with_j0 j (m_set m)) (fst r), snd r)).
Proof. intros F NF argsortF solve m fuel j. apply run_j0. Qed.
Print Assumptions C31_j0_ignored.

(** ** Exact arithmetic: equilibrium, control component, step limits, reactions *)
Lemma along_mono {F} `{NF : Num F} (Q Q' : list F -> analysis F -> list F -> analysis F -> Prop) :
  (forall x0 a0 x a, Q x0 a0 x a -> Q' x0 a0 x a) ->
  forall recs x0 a0, along Q x0 a0 recs -> along Q' x0 a0 recs.
Proof.
  intros H. induction recs as [|[x a] recs IH]; intros x0 a0; [auto|]. cbn. intros [A B]. auto.
Qed.

Local Open Scope R_scope.

Section Exact.
  Variables (argsortZ : list Z -> list nat) (argsortF : list R -> list nat) (solve : list (list R) -> list R -> list R).
  Variables (P : settings R -> Prop) (m : model R) (ns : list (Z * v3 R)) (ms : list (member R)) (bs : list (Z * list Z))
    (fs : list (Z * list R)) (m1 m2 : model R) (fuel : nat) (out : list msg) (logs : list (step_log R)).
  Hypotheses (HA : argsort_ok argsortZ) (Hd : described m ns ms bs fs) (HS : session argsortF solve argsortZ P m m1)
    (HL : ran_as argsortF solve m1 fuel m2 out logs) (H1 : forall u, m_built m1 = Some u -> (1 <= u_ndof1 u)%nat).
  Notation ftol := (pow10neg (s_ftol (m_set m1))).
  Notation predicted x0 x := (s_jpre (m_set m1) = true /\ s_jfixed (m_set m1) = false /\ x = x0).

  (** Everything about accepted increments that follows, with an invariant on
      control component and step limits. *)
  Lemma exact_records (I : Z -> list R -> Prop) :
    exists u1 nh eh mb ub, m_built m1 = Some u1 /\ m_nodes m1 = Some nh /\ m_elems m1 = Some eh /\
      build argsortZ m = Ok mb /\ m_built mb = Some ub /\
      let c := ctx_of m1 u1 nh eh in truss_ok c ms /\
      ((forall incs xl, let cfg := pf_config (m_set m1) xl incs in
       let n := S (u_ndof1 u1) in
       keeps_I solve argsortF (equilibrium c) (stiffness c) cfg (expand_dxmax n (DxVec [s_du (m_set m1); s_dlpf (m_set m1)])) I /\
       I (first_j cfg n (s_j0 (m_set m1))) (expand_dxmax n (DxVec [s_du (m_set m1); s_dlpf (m_set m1)]))) ->
      forall lg, In lg logs -> exists recs, good_part lg recs /\
      along (fun x0 a0 x a =>
        (residual_is a /\ balanced ftol x0 x a /\ I (a_j a) (a_dVmax a) /\
         length (a_U a) = length (n_labels nh) /\ length (a_r a) = length (n_labels nh) /\
         a_DOF0 a = a_DOF0 (u_an ub) /\ a_DOF1 a = a_DOF1 (u_an ub) /\
         vsum (a_r a) = vzero /\ self_consistent c ms a0 a) \/ predicted x0 x)
        (a_Ured (lg_start lg) ++ [f0]) (lg_start lg) recs).
  Proof.
    destruct (records_all argsortZ argsortF solve _ _ _ _ _ _ _ _ _ _ _ I HA Hd HS HL H1)
      as (u1 & nh & eh & mb & ub & E1 & E2 & E3 & E4 & E5 & Htr & H). cbv zeta in *.
    exists u1, nh, eh, mb, ub. do 6 (split; [assumption|]). intros HI lg Hin.
    destruct (H HI lg Hin) as (recs & Hg & Hal & _). exists recs. split; [exact Hg|].
    eapply along_mono; [|exact Hal]. intros x0 a0 x a [(R1 & R2 & R3 & R4 & R5 & R6 & R7 & an1 & an2 & gr & S1 & S2 & S3 & ->)|R]; [left|now right].
    repeat match goal with |- _ /\ _ => split end; auto.
    - apply in_balance_R, R2.
    - apply (self_equilibrium _ _ _ _ _ _ _ _ Htr S1 S3).
    - destruct (internal_forces_any _ _ _ _ _ _ _ _ Htr S1 S3) as [I1 I2]. split; [|exact I2].
      intros k b Hk. destruct (I1 k b Hk) as (s & t & st & A & J1 & J2). exists s, t, st, A. split; [|exact J2].
      intros de. specialize (J1 de). unfold state_row in *. rewrite S2 in J1. exact J1.
  Qed.
End Exact.

(** ** C26 accepted increments are in equilibrium *)
(** For every step of every run after build: in every increment that is not a
    failed one (see [good_part]) the recorded residual is minus internal plus
    constant plus LPF times reference forces, its norm over the active DOFs is
    below ftol and the control component moved as prescribed up to ftol, except
    if the predictor succeeded (then the vector of the increment before is
    recorded again). *)
Theorem C26_equilibrium : forall argsortZ argsortF solve P m ns ms bs fs m1 fuel m2 out logs,
  argsort_ok argsortZ -> described m ns ms bs fs -> session argsortF solve argsortZ P m m1 ->
  ran_as argsortF solve m1 fuel m2 out logs ->
  (forall u, m_built m1 = Some u -> (1 <= u_ndof1 u)%nat) ->
  forall lg, In lg logs -> exists recs, good_part lg recs /\
    along (fun x0 a0 x a => (residual_is a /\ balanced (powerRZ 10 (- s_ftol (m_set m1))) x0 x a) \/
             (s_jpre (m_set m1) = true /\ s_jfixed (m_set m1) = false /\ x = x0))
          (a_Ured (lg_start lg) ++ [f0]) (lg_start lg) recs.
Proof.
  intros argsortZ argsortF solve P m ns ms bs fs m1 fuel m2 out logs HA Hd HS HL H1 lg Hin. rewrite <- ?pow10neg_R.
  destruct (exact_records _ _ _ _ _ _ _ _ _ _ _ _ _ _ HA Hd HS HL H1 (fun _ _ => True))
    as (u1 & nh & eh & mb & ub & _ & _ & _ & _ & _ & _ & H). cbv zeta in H.
  destruct (H (fun incs xl => conj (keeps_True _ _ _ _ _ _ _ _) Logic.I) lg Hin) as (recs & Hg & Hal).
  exists recs. split; [exact Hg|]. eapply along_mono; [|exact Hal]. cbv beta. tauto.
Qed.
Print Assumptions C26_equilibrium.

(** The residual formula holds for every number type. *)
Theorem C26_residual : forall F (NF : Num F) argsortZ argsortF solve P m ns ms bs fs m1 fuel m2 out logs,
  argsort_ok argsortZ -> described m ns ms bs fs -> session argsortF solve argsortZ P m m1 ->
  ran_as argsortF solve m1 fuel m2 out logs ->
  (forall u, m_built m1 = Some u -> (1 <= u_ndof1 u)%nat) ->
  forall lg, In lg logs -> exists recs, good_part lg recs /\
    along (fun x0 a0 x a => residual_is a \/
             (s_jpre (m_set m1) = true /\ s_jfixed (m_set m1) = false /\ x = x0))
          (a_Ured (lg_start lg) ++ [f0]) (lg_start lg) recs.
Proof.
  intros F NF argsortZ argsortF solve P m ns ms bs fs m1 fuel m2 out logs HA Hd HS HL H1 lg Hin.
  destruct (records_balance argsortZ argsortF solve _ _ _ _ _ _ _ _ _ _ _ HA Hd HS HL H1 lg Hin) as (recs & Hg & Hal).
  exists recs. split; [exact Hg|]. eapply along_mono; [|exact Hal]. cbv beta. tauto.
Qed.
Print Assumptions C26_residual.

(** ** C31 with j_fixed the control component is the user's *)
Theorem C31_run : forall argsortZ argsortF solve P m ns ms bs fs m1 fuel m2 out logs j,
  argsort_ok argsortZ -> described m ns ms bs fs -> session argsortF solve argsortZ P m m1 ->
  ran_as argsortF solve m1 fuel m2 out logs ->
  (forall u, m_built m1 = Some u -> (1 <= u_ndof1 u)%nat) ->
  s_jfixed (m_set m1) = true -> s_j0 (m_set m1) = Some j ->
  forall lg, In lg logs -> exists recs, good_part lg recs /\
    along (fun x0 a0 x a => a_j a = j /\ balanced (powerRZ 10 (- s_ftol (m_set m1))) x0 x a)
          (a_Ured (lg_start lg) ++ [f0]) (lg_start lg) recs.
Proof.
  intros argsortZ argsortF solve P m ns ms bs fs m1 fuel m2 out logs j HA Hd HS HL H1 Hf Hj lg Hin. rewrite <- ?pow10neg_R.
  destruct (exact_records _ _ _ _ _ _ _ _ _ _ _ _ _ _ HA Hd HS HL H1 (fun j' _ => j' = j))
    as (u1 & nh & eh & mb & ub & _ & _ & _ & _ & _ & _ & H). cbv zeta in H.
  destruct (H ltac:(intros incs xl; split; [split; [|cbn; rewrite Hf; discriminate]|unfold first_j; cbn; rewrite Hf, Hj; reflexivity];
                    intros x0 pre s0 xmax ts t j' valid dxmax' z' b' changed Hi Hpass;
                    destruct Hpass as (xs & Dx & q & i1 & v1 & _ & _ & _ & _ & _ & _ & Hjj & _);
                    cbn in Hjj; rewrite Hf in Hjj; split; congruence) lg Hin) as (recs & Hg & Hal).
  exists recs. split; [exact Hg|]. eapply along_mono; [|exact Hal]. cbv beta.
  intros x0 a0 x a [A|(_ & A & _)]; [tauto|congruence].
Qed.
Print Assumptions C31_run.

(** Without adaptive step control the locked component moves in every accepted
    increment by the step limit of the settings, up to ftol: by du for a
    displacement, by dlpf for the load factor. *)
Theorem C31_amount : forall argsortZ argsortF solve P m ns ms bs fs m1 fuel m2 out logs j,
  argsort_ok argsortZ -> described m ns ms bs fs -> session argsortF solve argsortZ P m m1 ->
  ran_as argsortF solve m1 fuel m2 out logs ->
  (forall u, m_built m1 = Some u -> (1 <= u_ndof1 u)%nat) ->
  let st := m_set m1 in
  s_jfixed st = true -> s_j0 st = Some j -> j <> 0%Z -> s_stepcontrol st = false ->
  exists u1, m_built m1 = Some u1 /\
  forall lg, In lg logs -> exists recs, good_part lg recs /\
    along (fun x0 a0 x a => let k := (Z.to_nat (Z.abs j) - 1)%nat in
       exists x0j xj, nth_error x0 k = Some x0j /\ nth_error x k = Some xj /\ (k <= u_ndof1 u1)%nat /\
         Rabs (xj - (x0j + IZR (Z.sgn j) * (if (k <? u_ndof1 u1)%nat then s_du st else s_dlpf st)))
           < powerRZ 10 (- s_ftol st))
          (a_Ured (lg_start lg) ++ [f0]) (lg_start lg) recs.
Proof.
  intros argsortZ argsortF solve P m ns ms bs fs m1 fuel m2 out logs j HA Hd HS HL H1 st Hf Hj Hj0 Hsc. rewrite <- ?pow10neg_R.
  destruct (exact_records _ _ _ _ _ _ _ _ _ _ _ _ _ _ HA Hd HS HL H1
     (fun j' d => j' = j /\ exists u, m_built m1 = Some u /\ d = repeat (s_du st) (u_ndof1 u) ++ [s_dlpf st]))
    as (u1 & nh & eh & mb & ub & E1 & _ & _ & _ & _ & _ & H). cbv zeta in H. specialize (H1 _ E1).
  assert (Hx : expand_dxmax (S (u_ndof1 u1)) (DxVec [s_du st; s_dlpf st]) = repeat (s_du st) (u_ndof1 u1) ++ [s_dlpf st]).
  { unfold expand_dxmax. cbn. rewrite Nat.sub_0_r. f_equal. generalize (u_ndof1 u1). clear.
    intros n. induction n as [|n IH]; [reflexivity|]. cbn. rewrite IH. f_equal. numR. lra. }
  exists u1. split; [exact E1|].
  intros lg Hin. destruct (fun G => H G lg Hin) as (recs & Hg & Hal).
  - intros incs xl. unfold st in Hx. rewrite Hx. fold st in Hx. split; [split|].
    + intros x0 pre s xmax ts t j' valid dxmax' z' b' changed Hi Hpass.
      destruct Hpass as (xs & Dx & q & i1 & v1 & _ & _ & _ & _ & _ & _ & Hjj & _ & _ & Hcc).
      cbn in Hjj, Hcc. unfold st in Hsc, Hf. rewrite Hf in Hjj. rewrite Hsc in Hcc. destruct Hcc as (-> & _). subst j'. split; exact Hi.
    + cbn. unfold st in Hf. rewrite Hf. discriminate.
    + split; [unfold first_j; cbn; unfold st in Hf, Hj; rewrite Hf, Hj; reflexivity|eauto].
  - exists recs. split; [exact Hg|]. eapply along_mono; [|exact Hal]. cbv beta zeta.
    intros x0 a0 x a [(_ & (_ & _ & dj & xj & x0j & B1 & B2 & B3 & B4) & (Ej & u & Eu & E) & _)|(_ & A & _)]; [|unfold st in Hf; congruence].
    assert (u = u1) by congruence. subst u. rewrite Ej in *. rewrite E in B1.
    assert (G : forall (l : list R) v, py_get l (Z.abs j - 1) = Ok v -> nth_error l (Z.to_nat (Z.abs j) - 1) = Some v).
    { intros l v G. apply py_get_nth in G. destruct G as (p & G1 & G2). unfold py_pos in G1.
      destruct (Z.leb_spec 0 (Z.abs j - 1)) as [Q|Q]; [|lia]. cbn [andb] in G1.
      destruct (Z.ltb_spec (Z.abs j - 1) (Z.of_nat (length l))) as [Q2|Q2].
      - injection G1 as G1. rewrite <- G2. f_equal. lia.
      - destruct (Z.leb_spec (- Z.of_nat (length l)) (Z.abs j - 1)); cbn [andb] in G1; [|discriminate].
        destruct (Z.ltb_spec (Z.abs j - 1) 0); [lia|discriminate]. }
    apply G in B1, B2, B3. exists x0j, xj. do 2 (split; [assumption|]).
    set (k := (Z.to_nat (Z.abs j) - 1)%nat) in *. destruct (Nat.ltb_spec k (u_ndof1 u1)) as [Hk|Hk].
    + split; [lia|]. rewrite nth_error_app1 in B1 by (rewrite repeat_length; lia).
      apply nth_error_In, repeat_spec in B1. subst dj. rewrite Rmult_comm. exact B4.
    + assert (Hk2 : (k < u_ndof1 u1 + 1)%nat).
      { enough (Hl : (k < length (repeat (s_du st) (u_ndof1 u1) ++ [s_dlpf st]))%nat) by (rewrite app_length, repeat_length in Hl; exact Hl).
        apply nth_error_Some. rewrite B1. discriminate. }
      split; [lia|]. rewrite nth_error_app2 in B1 by (rewrite repeat_length; lia). rewrite repeat_length in B1.
      replace (k - u_ndof1 u1)%nat with O in B1 by lia. cbn in B1. injection B1 as <-. rewrite Rmult_comm. exact B4.
Qed.
Print Assumptions C31_amount.

(** ** C29 step limits in a run *)
(** In every accepted increment the step limits in use are those of the settings
    (du for every active DOF, dlpf for the load factor) times a common factor
    between minfac/reduce and maxfac*(1+increase). *)
Theorem C29_run : forall argsortZ argsortF solve P m ns ms bs fs m1 fuel m2 out logs,
  argsort_ok argsortZ -> described m ns ms bs fs -> session argsortF solve argsortZ P m m1 ->
  ran_as argsortF solve m1 fuel m2 out logs ->
  (forall u, m_built m1 = Some u -> (1 <= u_ndof1 u)%nat) ->
  let st := m_set m1 in
  0 < s_du st -> 0 <= s_minfac st <= 1 -> 1 <= s_maxfac st -> 1 <= s_reduce st -> 0 <= s_increase st ->
  exists u1, m_built m1 = Some u1 /\
  forall lg, In lg logs -> exists recs, good_part lg recs /\
    along (fun x0 a0 x a =>
      (exists f, s_minfac st / s_reduce st <= f <= s_maxfac st * (1 + s_increase st) /\
         a_dVmax a = map (fun v => v * f) (repeat (s_du st) (u_ndof1 u1) ++ [s_dlpf st])) \/
      (s_jpre st = true /\ s_jfixed st = false /\ x = x0))
          (a_Ured (lg_start lg) ++ [f0]) (lg_start lg) recs.
Proof.
  intros argsortZ argsortF solve P m ns ms bs fs m1 fuel m2 out logs HA Hd HS HL H1 st Hdu Hmi Hma Hre Hin0.
  destruct (exact_records _ _ _ _ _ _ _ _ _ _ _ _ _ _ HA Hd HS HL H1
     (fun _ d => exists f, s_minfac st / s_reduce st <= f <= s_maxfac st * (1 + s_increase st) /\
        exists u, m_built m1 = Some u /\ d = map (fun v => v * f) (repeat (s_du st) (u_ndof1 u) ++ [s_dlpf st])))
    as (u1 & nh & eh & mb & ub & E1 & _ & _ & _ & _ & _ & H). cbv zeta in H. specialize (H1 _ E1).
  assert (Hx : expand_dxmax (S (u_ndof1 u1)) (DxVec [s_du st; s_dlpf st]) = repeat (s_du st) (u_ndof1 u1) ++ [s_dlpf st]).
  { unfold expand_dxmax. cbn. rewrite Nat.sub_0_r. f_equal. generalize (u_ndof1 u1). clear.
    intros n. induction n as [|n IH]; [reflexivity|]. cbn. rewrite IH. f_equal. numR. lra. }
  exists u1. split; [exact E1|].
  assert (HI : forall d0 d, d0 = repeat (s_du st) (u_ndof1 u1) ++ [s_dlpf st] ->
    (exists f, s_minfac st / s_reduce st <= f <= s_maxfac st * (1 + s_increase st) /\
        exists u, m_built m1 = Some u /\ d = map (fun v => v * f) (repeat (s_du st) (u_ndof1 u) ++ [s_dlpf st])) <->
    (exists f, s_minfac st / s_reduce st <= f <= s_maxfac st * (1 + s_increase st) /\ multiple d0 f d)).
  { intros d0 d ->. unfold multiple. split.
    - intros (f & B & u & Eu & ->). assert (u = u1) by congruence. subst u. eauto.
    - intros (f & B & ->). eauto. }
  intros lg Hin. destruct (fun G => H G lg Hin) as (recs & Hg & Hal).
  - intros incs xl. unfold st in Hx, HI. rewrite Hx. fold st in Hx, HI.
    destruct (bounds_keep solve argsortF (equilibrium (ctx_of m1 u1 nh eh)) (stiffness (ctx_of m1 u1 nh eh))
      (pf_config st xl incs) (repeat (s_du st) (u_ndof1 u1) ++ [s_dlpf st])) as [K1 K2].
    { unfold control_params. cbn. tauto. }
    { intros v Hv. destruct (u_ndof1 u1); [lia|]. cbn in Hv. injection Hv as <-. exact Hdu. }
    split; [split|].
    + intros x0 pre s xmax ts t j valid dxmax' z' b' changed Hi Hpass.
      rewrite (HI _ _ eq_refl) in *. rewrite (HI _ _ eq_refl) in Hi. exact (K1 _ _ _ _ _ _ _ _ _ _ _ _ Hi Hpass).
    + auto.
    + apply (HI _ _ eq_refl). exists 1. split; [|apply multiple_one]. split.
      * apply (Rmult_le_reg_r (s_reduce st)); [lra|]. unfold Rdiv. rewrite Rmult_assoc, Rinv_l; lra.
      * nra.
  - exists recs. split; [exact Hg|]. eapply along_mono; [|exact Hal]. cbv beta.
    intros x0 a0 x a [(_ & _ & (f & B & u & Eu & E) & _)|A]; [left|now right].
    assert (u = u1) by congruence. subst u. eauto.
Qed.
Print Assumptions C29_run.

(** ** C35 reactions balance the applied load *)
(** If all support flags are 0 or 1: in every accepted increment and for each
    direction, the reactions at the locked DOFs and the external forces at all
    nodes add up to zero, up to the number of active DOFs times ftol. *)
Theorem C35_reactions : forall argsortZ argsortF solve P m ns ms bs fs m1 fuel m2 out logs,
  argsort_ok argsortZ -> described m ns ms bs fs -> session argsortF solve argsortZ P m m1 ->
  ran_as argsortF solve m1 fuel m2 out logs ->
  (forall u, m_built m1 = Some u -> (1 <= u_ndof1 u)%nat) ->
  (forall l v, In (l, v) bs -> incl v [0; 1]%Z) ->
  forall lg, In lg logs -> exists recs, good_part lg recs /\
    along (fun x0 a0 x a =>
      (forall d, (d < 3)%nat ->
         Rabs (sum_over (in_direction d (a_DOF0 a)) (reaction a) +
               sum_over (in_direction d (seq 0 (3 * length ns))) (external a))
         <= INR (length (a_DOF1 a)) * powerRZ 10 (- s_ftol (m_set m1))) \/
      (s_jpre (m_set m1) = true /\ s_jfixed (m_set m1) = false /\ x = x0))
          (a_Ured (lg_start lg) ++ [f0]) (lg_start lg) recs.
Proof.
  intros argsortZ argsortF solve P m ns ms bs fs m1 fuel m2 out logs HA Hd HS HL H1 Hfl lg Hin. rewrite <- ?pow10neg_R.
  destruct (exact_records _ _ _ _ _ _ _ _ _ _ _ _ _ _ HA Hd HS HL H1 (fun _ _ => True))
    as (u1 & nh & eh & mb & ub & E1 & E2 & E3 & E4 & E5 & _ & H). cbv zeta in H.
  destruct (H (fun incs xl => conj (keeps_True _ _ _ _ _ _ _ _) Logic.I) lg Hin) as (recs & Hg & Hal).
  destruct (sound_session _ _ _ _ _ _ _ _ _ _ HA Hd HS) as (mb' & Hb' & Hs).
  assert (mb' = mb) by congruence. subst mb'. destruct Hs as (S1 & _).
  destruct (build_reached _ _ _ _ _ _ _ HA Hd E4) as (nhb & _ & _ & _ & ns' & En & _ & _ & _ & Hns' & Hp & _).
  assert (Hlen : length (n_labels nh) = length ns).
  { assert (nhb = nh) by congruence. subst nhb. rewrite En in Hns'. destruct Hns' as [-> _].
    rewrite map_length. apply Permutation_length, Hp. }
  assert (Hpart : Permutation (a_DOF0 (u_an ub) ++ a_DOF1 (u_an ub)) (seq 0 (3 * length ns))).
  { destruct Hd as (D1 & D2 & D3 & _ & D5 & D6 & _ & D8 & _).
    destruct (build_partition _ _ _ _ _ _ HA D1 D2 D3 D6 D5 D8 E4) as (nh' & u' & _ & Eu' & _ & _ & _ & _ & _ & Hpp).
    assert (u' = ub) by congruence. subst u'. exact (Hpp Hfl). }
  exists recs. split; [exact Hg|]. eapply along_mono; [|exact Hal]. cbv beta.
  intros x0 a0 x a [(R1 & (B1 & B2 & _) & _ & R4 & R5 & R6 & R7 & R8 & _)|A]; [left|now right].
  rewrite <- norm_values in B2. apply values_gather in B1.
  intros d Hd3. eapply reactions_balance; eauto; congruence.
Qed.
Print Assumptions C35_reactions.

(** ** C42 results are consistent in themselves *)
(** In every accepted increment the recorded stretches, stresses, member forces
    and internal nodal forces are those of the recorded displacements (with the
    state variables of the increment before), and the internal forces add up to
    zero. *)
Theorem C42_consistent : forall argsortZ argsortF solve P m ns ms bs fs m1 fuel m2 out logs,
  argsort_ok argsortZ -> described m ns ms bs fs -> session argsortF solve argsortZ P m m1 ->
  ran_as argsortF solve m1 fuel m2 out logs ->
  (forall u, m_built m1 = Some u -> (1 <= u_ndof1 u)%nat) ->
  exists u1 nh eh, m_built m1 = Some u1 /\ m_nodes m1 = Some nh /\ m_elems m1 = Some eh /\
  forall lg, In lg logs -> exists recs, good_part lg recs /\
    along (fun x0 a0 x a => (self_consistent (ctx_of m1 u1 nh eh) ms a0 a /\ vsum (a_r a) = vzero) \/
             (s_jpre (m_set m1) = true /\ s_jfixed (m_set m1) = false /\ x = x0))
          (a_Ured (lg_start lg) ++ [f0]) (lg_start lg) recs.
Proof.
  intros argsortZ argsortF solve P m ns ms bs fs m1 fuel m2 out logs HA Hd HS HL H1.
  destruct (exact_records _ _ _ _ _ _ _ _ _ _ _ _ _ _ HA Hd HS HL H1 (fun _ _ => True))
    as (u1 & nh & eh & mb & ub & E1 & E2 & E3 & E4 & E5 & _ & H). cbv zeta in H.
  exists u1, nh, eh. do 3 (split; [assumption|]). intros lg Hin.
  destruct (H (fun incs xl => conj (keeps_True _ _ _ _ _ _ _ _) Logic.I) lg Hin) as (recs & Hg & Hal).
  exists recs. split; [exact Hg|]. eapply along_mono; [|exact Hal]. cbv beta. tauto.
Qed.
Print Assumptions C42_consistent.

(** ** Runs evaluated by the kernel (fixed-point arithmetic) *)
(** Two steps of three increments without ERROR line; the first step ends with a
    nonzero load factor, the second has nonzero constant forces. *)
Example C32_meets : exists m1 m2 out u2 r0 a1 a2 a3 a4 a5 a6 l1 l2,
  described (xr_at (xr_settings 8 8 false false None 8 3 2)) xr_ns xr_ms xr_bs xr_fs /\
  build argsort_ins (xr_at (xr_settings 8 8 false false None 8 3 2)) = Ok m1 /\
  run argsort_fx gauss m1 40 = Ok (m2, out) /\ (forall e, In e out -> ~ error_line e) /\
  (0 < s_nsteps (m_set m1))%Z /\ m_built m2 = Some u2 /\
  u_R u2 = [r0; a1; a2; a3; a4; a5; a6] /\ u_lpf_end u2 = [l1; l2] /\ l1 <> f0 /\
  l1 = a_lpf a3 /\ l2 = a_lpf a6 /\
  nth_error (concat (a_fconst a6)) 4 = Some (fmul l1 (q (-1) 1)).
Proof.
  pose (test := fun (m1 m2 : model fix_) (out : list msg) =>
    forallb (fun e => match e with MIncr => true | MRecycle => true | _ => false end) out && (0 <? s_nsteps (m_set m1))%Z &&
    on_built false (fun u => match u_R u, u_lpf_end u with
      | [r0; a1; a2; a3; a4; a5; a6], [l1; l2] =>
          negb (eq_fix l1 f0) && eq_fix l1 (a_lpf a3) && eq_fix l2 (a_lpf a6) &&
          match nth_error (concat (a_fconst a6)) 4 with Some v => eq_fix v (fmul l1 (q (-1) 1)) | None => false end
      | _, _ => false end) m2).
  destruct (xr_tested (xr_settings 8 8 false false None 8 3 2) test) as (m1 & m2 & out & Hb & Hr & Ht);
    [vm_compute; reflexivity|].
  unfold test, on_built in Ht. destruct (m_built m2) as [u|] eqn:Eu; [|rewrite andb_false_r in Ht; discriminate].
  destruct (u_R u) as [|r0 [|a1 [|a2 [|a3 [|a4 [|a5 [|a6 [|a7 R]]]]]]]] eqn:ER; try (rewrite andb_false_r in Ht; discriminate).
  destruct (u_lpf_end u) as [|l1 [|l2 [|l3 l]]] eqn:El; try (rewrite andb_false_r in Ht; discriminate).
  destruct (nth_error (concat (a_fconst a6)) 4) as [v|] eqn:Ev; [|rewrite !andb_false_r in Ht; discriminate].
  rewrite !andb_true_iff, negb_true_iff, !eq_fix_ok, Z.ltb_lt in Ht. destruct Ht as ((Ho & Hn) & ((H1 & H2) & H3) & H4).
  exists m1, m2, out, u, r0, a1, a2, a3, a4, a5, a6, l1, l2.
  repeat match goal with |- _ /\ _ => split end; auto.
  - apply xr_described.
  - intros e He. rewrite forallb_forall in Ho. specialize (Ho e He). destruct e; try discriminate; intros [E|E]; discriminate.
  - intros E. apply eq_fix_ok in E. congruence.
  - congruence.
Qed.

(** "Every result is converged" is false in a run: with one Newton iteration per
    attempt ERROR lines are printed and a recorded result has a residual norm over
    the active DOFs that is not below ftol. *)
Theorem C27_results_converged_refuted : exists st m1 m2 out u2 a gr,
  described (xr_at st) xr_ns xr_ms xr_bs xr_fs /\
  build argsort_ins (xr_at st) = Ok m1 /\ run argsort_fx gauss m1 40 = Ok (m2, out) /\
  In MError1 out /\ m_built m2 = Some u2 /\ In a (u_R u2) /\
  gather (a_g a) (a_DOF1 a) = Ok gr /\ fltb (fnorm gr) (pow10neg (s_ftol (m_set m1))) = false.
Proof.
  pose (test := fun (m1 m2 : model fix_) (out : list msg) =>
    existsb (fun e => match e with MError1 => true | _ => false end) out &&
    on_built false (fun u => existsb (fun a => match gather (a_g a) (a_DOF1 a) with
       | Ok gr => negb (fltb (fnorm gr) (pow10neg (s_ftol (m_set m1)))) | _ => false end) (u_R u)) m2).
  destruct (xr_tested (xr_settings 10 8 false false None 1 3 2) test) as (m1 & m2 & out & Hb & Hr & Ht);
    [vm_compute; reflexivity|].
  unfold test, on_built in Ht. apply andb_true_iff in Ht. destruct Ht as [Ho Ht].
  destruct (m_built m2) as [u|] eqn:Eu; [|discriminate].
  apply existsb_exists in Ho. destruct Ho as (e & He & Ho). destruct e; try discriminate.
  apply existsb_exists in Ht. destruct Ht as (a & Ha & Ht).
  destruct (gather (a_g a) (a_DOF1 a)) as [gr| |] eqn:Eg; try discriminate. apply negb_true_iff in Ht.
  exists (xr_settings 10 8 false false None 1 3 2), m1, m2, out, u, a, gr.
  repeat match goal with |- _ /\ _ => split end; auto. apply xr_described.
Qed.
Print Assumptions C27_results_converged_refuted.

(** Running twice without building in between: the second run adds to the old
    load factors, the last result of the first run is lost, and the constant force
    of the second run's second step belongs to the first run's load factor [l1]
    although the second run's first step ended with [l3]. *)
Theorem C34_rerun_refuted : exists m1 m2 m3 out2 out3 u2 u3 l1 l2 l3 l4 R2 a R3 b,
  build argsort_ins (xr_at (xr_settings 8 8 false false None 8 3 2)) = Ok m1 /\
  run argsort_fx gauss m1 40 = Ok (m2, out2) /\ run argsort_fx gauss m2 40 = Ok (m3, out3) /\
  m_built m2 = Some u2 /\ m_built m3 = Some u3 /\
  u_R u2 = R2 ++ [a] /\ u_R u3 = R3 ++ [b] /\ u_lpf_end u2 = [l1; l2] /\ u_lpf_end u3 = [l1; l2; l3; l4] /\
  (forall r, In r (u_R u3) -> a_lpf r <> a_lpf a) /\
  l3 <> l1 /\ nth_error (concat (a_fconst b)) 4 = Some (fmul l1 (q (-1) 1)).
Proof.
  pose (test := fun (m1 m2 : model fix_) (out : list msg) =>
    match run argsort_fx gauss m2 40 with
    | Ok (m3, _) =>
      on_built false (fun u2 => on_built false (fun u3 =>
        match rev (u_R u2), rev (u_R u3), u_lpf_end u2, u_lpf_end u3 with
        | a :: _, b :: _, [l1; l2], [k1; k2; l3; l4] =>
            eq_fix k1 l1 && eq_fix k2 l2 && forallb (fun r => negb (eq_fix (a_lpf r) (a_lpf a))) (u_R u3) &&
            negb (eq_fix l3 l1) &&
            match nth_error (concat (a_fconst b)) 4 with Some v => eq_fix v (fmul l1 (q (-1) 1)) | None => false end
        | _, _, _, _ => false
        end) m3) m2
    | _ => false
    end).
  destruct (xr_tested (xr_settings 8 8 false false None 8 3 2) test) as (m1 & m2 & out & Hb & Hr & Ht);
    [vm_compute; reflexivity|].
  unfold test, on_built in Ht. clear test.
  destruct (run argsort_fx gauss m2 40) as [[m3 out3]| |] eqn:Hr3; try discriminate.
  destruct (m_built m2) as [u2|] eqn:E2; [|discriminate]. destruct (m_built m3) as [u3|] eqn:E3; [|discriminate].
  destruct (rev (u_R u2)) as [|a R2] eqn:ER2; [discriminate|]. destruct (rev (u_R u3)) as [|b R3] eqn:ER3; [discriminate|].
  destruct (u_lpf_end u2) as [|l1 [|l2 [|x l]]] eqn:EL2; try discriminate.
  destruct (u_lpf_end u3) as [|k1 [|k2 [|l3 [|l4 [|x l]]]]] eqn:EL3; try discriminate.
  destruct (nth_error (concat (a_fconst b)) 4) as [v|] eqn:Ev; [|rewrite andb_false_r in Ht; discriminate].
  rewrite !andb_true_iff, negb_true_iff, !eq_fix_ok, forallb_forall in Ht.
  destruct Ht as ((((-> & ->) & Hn) & H3) & ->).
  apply (f_equal (@rev _)) in ER2, ER3. rewrite rev_involutive in ER2, ER3. cbn [rev] in ER2, ER3.
  exists m1, m2, m3, out, out3, u2, u3, l1, l2, l3, l4, (rev R2), a, (rev R3), b.
  repeat match goal with |- _ /\ _ => split end; auto.
  - intros r Hin E. specialize (Hn r Hin). apply negb_true_iff in Hn. apply eq_fix_ok in E. congruence.
  - intros E. apply eq_fix_ok in E. congruence.
Qed.
Print Assumptions C34_rerun_refuted.

(** j_fixed: a run with a locked control component without ERROR line. *)
Example C31_run_meets : exists m1 m2 out u2,
  described (xr_at (xr_settings 8 8 false true (Some (-2)%Z) 8 3 2)) xr_ns xr_ms xr_bs xr_fs /\
  build argsort_ins (xr_at (xr_settings 8 8 false true (Some (-2)%Z) 8 3 2)) = Ok m1 /\
  run argsort_fx gauss m1 40 = Ok (m2, out) /\ (forall e, In e out -> ~ error_line e) /\
  s_jfixed (m_set m1) = true /\ s_j0 (m_set m1) = Some (-2)%Z /\ m_built m2 = Some u2 /\
  length (u_R u2) = 7%nat /\ (forall a, In a (tl (u_R u2)) -> a_j a = (-2)%Z).
Proof.
  pose (test := fun (m1 m2 : model fix_) (out : list msg) =>
    forallb (fun e => match e with MIncr => true | MRecycle => true | _ => false end) out &&
    s_jfixed (m_set m1) && match s_j0 (m_set m1) with Some j => Z.eqb j (-2) | None => false end &&
    on_built false (fun u => (length (u_R u) =? 7)%nat && forallb (fun a => Z.eqb (a_j a) (-2)) (tl (u_R u))) m2).
  destruct (xr_tested (xr_settings 8 8 false true (Some (-2)%Z) 8 3 2) test) as (m1 & m2 & out & Hb & Hr & Ht);
    [vm_compute; reflexivity|].
  unfold test, on_built in Ht. destruct (m_built m2) as [u|] eqn:Eu; [|rewrite andb_false_r in Ht; discriminate].
  destruct (s_j0 (m_set m1)) as [j|] eqn:Ej; [|rewrite andb_false_r in Ht; discriminate].
  rewrite !andb_true_iff, Nat.eqb_eq, Z.eqb_eq in Ht. destruct Ht as (((Ho & H1) & ->) & H2 & H3).
  rewrite forallb_forall in Ho, H3.
  exists m1, m2, out, u. repeat match goal with |- _ /\ _ => split end; auto.
  - apply xr_described.
  - intros e He. specialize (Ho e He). destruct e; try discriminate; intros [E|E]; discriminate.
  - intros a Ha. apply Z.eqb_eq, H3, Ha.
Qed.
