(** * Properties of log files (C39)

    Vocabulary: SpecLog.v.  A history is any list of actions of a program. *)
From Coq Require Import List ZArith Bool Arith String Lia.
Import ListNotations.
From Verif Require Import Num Logfile SpecLog.

Lemma outs_spec ls : forall w,
  w_out (outs ls w) = w_out w /\ w_models (outs ls w) = w_models w /\
  w_text (outs ls w) = w_text w ++ map (pair (w_out w)) ls.
Proof.
  induction ls as [|l ls IH]; intros w; cbn; [now rewrite app_nil_r|].
  change (fold_left _ ls (out l w)) with (outs ls (out l w)). destruct (IH (out l w)) as (-> & -> & ->).
  cbn. rewrite <- app_assoc. auto.
Qed.

Lemma acts_app h1 : forall h2 w w', acts (h1 ++ h2) w = Some w' -> exists w1, acts h1 w = Some w1 /\ acts h2 w1 = Some w'.
Proof.
  induction h1 as [|a h1 IH]; intros h2 w w' H; cbn in *; [eauto|].
  destruct (act a w); [|discriminate]. now apply IH.
Qed.

Lemma acts_join h1 : forall h2 w w1 w', acts h1 w = Some w1 -> acts h2 w1 = Some w' -> acts (h1 ++ h2) w = Some w'.
Proof.
  induction h1 as [|a h1 IH]; intros h2 w w1 w' H1 H2; cbn in *; [congruence|].
  destruct (act a w); [|discriminate]. eauto.
Qed.

(** Models are only added. *)
Lemma act_models a w w' : act a w = Some w' -> exists l, w_models w' = w_models w ++ l.
Proof.
  destruct a as [log lf o|i ls ok|i ls ok|l|s]; cbn [act].
  - intros H. injection H as <-. unfold new_model. destruct lf; [destruct o|].
    + destruct (outs_spec (header log true) (World (LogOf (List.length (w_models w))) (w_models w ++ [Logging (w_out w) true]) (w_text w))) as (_ & -> & _). cbn. eauto.
    + exists []. now rewrite app_nil_r.
    + destruct (outs_spec (header log false) (World (w_out w) (w_models w ++ [Logging (w_out w) false]) (w_text w))) as (_ & -> & _). cbn. eauto.
  - destruct (nth_error _ _); [|discriminate]. intros H. injection H as <-. exists []. rewrite app_nil_r. apply outs_spec.
  - destruct (nth_error _ _); [|discriminate]. intros H. injection H as <-. exists []. rewrite app_nil_r.
    unfold run_call. destruct (ok && g_logfile l); apply outs_spec.
  - intros H. injection H as <-. exists []. now rewrite app_nil_r.
  - destruct s as [n|i]; [|destruct (Nat.ltb i (List.length (w_models w))) eqn:L]; intros H; try discriminate; injection H as <-; exists []; now rewrite app_nil_r.
Qed.

Lemma acts_models h : forall w w', acts h w = Some w' -> exists l, w_models w' = w_models w ++ l.
Proof.
  induction h as [|a h IH]; intros w w' H; cbn in H; [injection H as <-; exists []; now rewrite app_nil_r|].
  destruct (act a w) as [w1|] eqn:E; [|discriminate]. apply act_models in E. destruct E as (l1 & E).
  apply IH in H. destruct H as (l2 & H). exists (l1 ++ l2). now rewrite H, E, app_assoc.
Qed.

Lemma acts_kept h w w' i g : acts h w = Some w' -> nth_error (w_models w) i = Some g -> nth_error (w_models w') i = Some g.
Proof.
  intros H Hg. apply acts_models in H. destruct H as (l & ->). rewrite nth_error_app1; [exact Hg|].
  apply nth_error_Some. congruence.
Qed.

Lemma plain_back h plain w w' : acts h w = Some w' -> plain_ok plain w' -> plain_ok plain w.
Proof. intros H Hp i Hi (g & Hg & E). apply (Hp i Hi). exists g. split; [|exact E]. eapply acts_kept; eauto. Qed.

Lemma header_is log b : header log b = opening log b.
Proof. unfold header, opening. destruct b, (Z.ltb_spec 1 log), (Z.leb_spec 2 log); try lia; reflexivity. Qed.

Lemma act_quiet plain a w w' : quiet plain a -> plain_ok plain w -> act a w = Some w' ->
  w_out w' = w_out w /\ w_text w' = w_text w ++ map (pair (w_out w)) (lines_of a).
Proof.
  intros Hq Hp H. destruct a as [log lf o|i ls ok|i ls ok|l|s]; cbn in *; try contradiction.
  - injection H as <-. unfold new_model. destruct lf; [destruct o|]; cbn.
    + destruct Hq; discriminate.
    + now rewrite app_nil_r.
    + destruct (outs_spec (header log false) (World (w_out w) (w_models w ++ [Logging (w_out w) false]) (w_text w))) as (-> & _ & ->). rewrite header_is. auto.
  - destruct (nth_error _ _); [|discriminate]. injection H as <-. destruct (outs_spec ls w) as (-> & _ & ->). auto.
  - destruct (nth_error (w_models w) i) as [g|] eqn:Eg; [|discriminate]. injection H as <-. unfold run_call.
    assert (ok && g_logfile g = false) as ->.
    { destruct Hq as [->|Hq]; [reflexivity|]. destruct (g_logfile g) eqn:E; [|apply andb_false_r].
      exfalso. apply (Hp i Hq). exists g. auto. }
    destruct (outs_spec ls w) as (-> & _ & ->). auto.
  - injection H as <-. auto.
Qed.

Lemma acts_quiet plain h : forall w w', Forall (quiet plain) h -> plain_ok plain w' -> acts h w = Some w' ->
  w_out w' = w_out w /\ w_text w' = w_text w ++ map (pair (w_out w)) (flat_map lines_of h).
Proof.
  induction h as [|a h IH]; intros w w' Hq Hp H; cbn in *; [injection H as <-; now rewrite app_nil_r|].
  destruct (act a w) as [w1|] eqn:E; [|discriminate]. inversion Hq; subst.
  pose proof (plain_back h _ _ _ H Hp) as Hp1.
  assert (Hp0 : plain_ok plain w) by (apply (plain_back [a] plain w w1); [cbn; now rewrite E|exact Hp1]).
  destruct (act_quiet plain a w w1) as [E1 E2]; auto. destruct (IH w1 w') as [E3 E4]; auto.
  rewrite E3, E4, E1, E2. rewrite <- app_assoc, map_app. auto.
Qed.

Lemma new_logs log w w' : act (NewModel log true true) w = Some w' ->
  w_out w' = LogOf (List.length (w_models w)) /\ w_models w' = w_models w ++ [Logging (w_out w) true] /\
  w_text w' = w_text w ++ map (pair (LogOf (List.length (w_models w)))) (opening log true).
Proof. rewrite <- header_is. cbn. intros H. injection H as <-. apply (outs_spec (header log true)). Qed.

Lemma nth_new {A} (l : list A) x : nth_error (l ++ [x]) (List.length l) = Some x.
Proof. rewrite nth_error_app2, Nat.sub_diag; [reflexivity|lia]. Qed.

Lemma run_restores g i ls w w' : nth_error (w_models w) i = Some g -> g_logfile g = true ->
  act (RunCall i ls true) w = Some w' ->
  w_out w' = g_saved g /\ w_models w' = w_models w /\ w_text w' = w_text w ++ map (pair (w_out w)) ls.
Proof.
  intros Hg Hl. cbn. rewrite Hg. intros H. injection H as <-. unfold run_call. rewrite Hl. cbn.
  split; [reflexivity|]. apply outs_spec.
Qed.

(** ** Possible interpreters know only streams that exist *)
Definition known (w : world) (s : stream) : Prop := match s with User _ => True | LogOf i => i < List.length (w_models w) end.

Definition sane (w : world) : Prop :=
  known w (w_out w) /\ (forall g, In g (w_models w) -> known w (g_saved g)) /\ (forall s l, In (s, l) (w_text w) -> known w s).

Lemma known_more w w' l s : w_models w' = w_models w ++ l -> known w s -> known w' s.
Proof. intros E. destruct s; cbn; [auto|]. rewrite E, app_length. lia. Qed.

Lemma sane_outs ls w : sane w -> sane (outs ls w).
Proof.
  intros (A & B & C). destruct (outs_spec ls w) as (E1 & E2 & E3). unfold sane.
  assert (K : forall s, known (outs ls w) s <-> known w s) by (intros []; cbn; rewrite ?E2; tauto).
  rewrite E1, E2, E3. split; [now apply K|]. split; [intros g Hg; apply K; auto|].
  intros s l Hl. apply K. apply in_app_iff in Hl. destruct Hl as [Hl|Hl]; [eauto|].
  apply in_map_iff in Hl. destruct Hl as (x & Ex & _). injection Ex as <- _. exact A.
Qed.

Lemma sane_act a w w' : sane w -> act a w = Some w' -> sane w'.
Proof.
  intros S H. pose proof S as (A & B & C). destruct a as [log lf o|i ls ok|i ls ok|l|s]; cbn [act] in H.
  - injection H as <-. unfold new_model. destruct lf; [destruct o|].
    + apply sane_outs. unfold sane. cbn [w_out w_models w_text].
      split; [cbn; rewrite app_length; cbn; lia|]. split.
      * intros g Hg. eapply known_more; [cbn; reflexivity|]. apply in_app_iff in Hg.
        destruct Hg as [Hg|[<-|[]]]; [now apply B|exact A].
      * intros s l Hl. eapply known_more; [cbn; reflexivity|]. eauto.
    + exact S.
    + apply sane_outs. unfold sane. cbn [w_out w_models w_text].
      split; [eapply known_more; [cbn; reflexivity|]; exact A|]. split.
      * intros g Hg. eapply known_more; [cbn; reflexivity|]. apply in_app_iff in Hg.
        destruct Hg as [Hg|[<-|[]]]; [now apply B|exact A].
      * intros s l Hl. eapply known_more; [cbn; reflexivity|]. eauto.
  - destruct (nth_error _ _); [|discriminate]. injection H as <-. now apply sane_outs.
  - destruct (nth_error (w_models w) i) as [g|] eqn:Eg; [|discriminate]. injection H as <-.
    unfold run_call. destruct (ok && g_logfile g); [|now apply sane_outs].
    destruct (sane_outs ls _ S) as (A' & B' & C'). split; [|split; [exact B'|exact C']].
    change (known (outs ls w) (g_saved g)). apply B'. destruct (outs_spec ls w) as (_ & -> & _).
    eapply nth_error_In; eauto.
  - injection H as <-. exact (sane_outs [l] w S).
  - destruct s as [n|i].
    + injection H as <-. split; [exact Logic.I|]. split; [exact B|exact C].
    + destruct (i <? List.length (w_models w)) eqn:L; [|discriminate]. injection H as <-.
      apply Nat.ltb_lt in L. split; [exact L|]. split; [exact B|exact C].
Qed.

Lemma sane_acts h : forall w w', sane w -> acts h w = Some w' -> sane w'.
Proof.
  induction h as [|a h IH]; intros w w' S H; cbn in H; [now injection H as <-|].
  destruct (act a w) eqn:E; [|discriminate]. eapply IH; [|exact H]. eapply sane_act; eauto.
Qed.

Lemma possible_sane w : possible w -> sane w.
Proof.
  intros (w0 & h & [Hm [n Ho]] & Ht & H). eapply sane_acts; [|exact H].
  split; [now rewrite Ho|]. split; intros; [rewrite Hm in *|rewrite Ht in *]; contradiction.
Qed.

Lemma possible_new w : possible w -> w_out w <> LogOf (List.length (w_models w)).
Proof. intros H E. apply possible_sane in H. destruct H as (A & _). rewrite E in A. cbn in A. lia. Qed.

(** ** Received text *)
Definition same (a b : stream) : bool :=
  match a, b with User x, User y => Nat.eqb x y | LogOf x, LogOf y => Nat.eqb x y | _, _ => false end.

Lemma same_iff a b : same a b = true <-> a = b.
Proof. destruct a, b; cbn; rewrite ?Nat.eqb_eq; split; intros H; try congruence; discriminate. Qed.

Lemma received_cons s s' l t : received s ((s', l) :: t) = (if same s s' then [l] else []) ++ received s t.
Proof. destruct s, s'; cbn; try reflexivity; destruct (_ =? _); reflexivity. Qed.

Lemma received_app s t1 t2 : received s (t1 ++ t2) = received s t1 ++ received s t2.
Proof.
  induction t1 as [|[s' l] t1 IH]; [reflexivity|]. cbn [app]. rewrite !received_cons, IH. now rewrite app_assoc.
Qed.

Lemma received_own s ls : received s (map (pair s) ls) = ls.
Proof.
  induction ls as [|l ls IH]; [reflexivity|]. cbn [map]. rewrite received_cons, IH.
  now rewrite (proj2 (same_iff s s) eq_refl).
Qed.

Lemma received_other s s' ls : s <> s' -> received s (map (pair s') ls) = [].
Proof.
  intros H. induction ls as [|l ls IH]; [reflexivity|]. cbn [map]. rewrite received_cons, IH.
  destruct (same s s') eqn:E; [|reflexivity]. apply same_iff in E. congruence.
Qed.

Lemma received_none w i : sane w -> List.length (w_models w) <= i -> received (LogOf i) (w_text w) = [].
Proof.
  intros (_ & _ & H) Hi. induction (w_text w) as [|[s l] t IH]; [reflexivity|].
  rewrite received_cons. rewrite IH by (intros; eapply H; right; eauto).
  destruct (same (LogOf i) s) eqn:E; [|reflexivity]. apply same_iff in E. subst s.
  specialize (H _ _ (or_introl eq_refl)). cbn in H. lia.
Qed.

(** ** The theorems *)
(** A successful run of a logging model gives the interpreter the stdout it had
    just before this model was constructed, whatever happened in between. *)
Theorem C39_general : forall h1 h2 h3 log i ls plain w0 w1 w,
  acts h1 w0 = Some w1 -> i = List.length (w_models w1) ->
  acts (h1 ++ NewModel log true true :: h2 ++ RunCall i ls true :: h3) w0 = Some w ->
  Forall (quiet plain) h3 -> plain_ok plain w ->
  w_out w = w_out w1.
Proof.
  intros h1 h2 h3 log i ls plain w0 w1 w H1 -> H Hq Hp.
  apply acts_app in H. destruct H as (w1' & E & H). rewrite H1 in E. injection E as <-.
  change (acts ([NewModel log true true] ++ (h2 ++ [RunCall (List.length (w_models w1)) ls true] ++ h3)) w1 = Some w) in H.
  apply acts_app in H. destruct H as (w2 & E2 & H). cbn [acts] in E2.
  destruct (act (NewModel log true true) w1) as [w2'|] eqn:E2'; [|discriminate]. injection E2 as ->.
  apply new_logs in E2'. destruct E2' as (_ & Em & _).
  apply acts_app in H. destruct H as (w3 & E3 & H). apply acts_app in H. destruct H as (w4 & E4 & H).
  assert (Hg : nth_error (w_models w3) (List.length (w_models w1)) = Some (Logging (w_out w1) true)).
  { eapply acts_kept; [exact E3|]. rewrite Em. apply nth_new. }
  cbn [acts] in E4. destruct (act (RunCall _ ls true) w3) as [w4'|] eqn:E4'; [|discriminate]. injection E4 as ->.
  apply (run_restores _ _ _ _ _ Hg eq_refl) in E4'. destruct E4' as (E4' & _).
  destruct (acts_quiet plain h3 w4 w Hq Hp H) as [-> _]. exact E4'.
Qed.
Print Assumptions C39_general.

(** One logging model: everything printed between its constructor and the end of
    its run, and nothing else, is in its file; stdout receives none of it and is
    the same afterwards. *)
Theorem C39_single : forall h log i ls plain w1 w,
  possible w1 -> i = List.length (w_models w1) ->
  acts (NewModel log true true :: h ++ [RunCall i ls true]) w1 = Some w ->
  Forall (quiet plain) h -> plain_ok plain w ->
  w_out w = w_out w1 /\
  received (LogOf i) (w_text w) = opening log true ++ flat_map lines_of h ++ ls /\
  forall s, s <> LogOf i -> received s (w_text w) = received s (w_text w1).
Proof.
  intros h log i ls plain w1 w Hw -> H Hq Hp.
  change (acts ([NewModel log true true] ++ (h ++ [RunCall (List.length (w_models w1)) ls true])) w1 = Some w) in H.
  apply acts_app in H. destruct H as (w2 & E2 & H). cbn [acts] in E2.
  destruct (act (NewModel log true true) w1) as [w2'|] eqn:E2'; [|discriminate]. injection E2 as ->.
  apply new_logs in E2'. destruct E2' as (Eo & Em & Et).
  apply acts_app in H. destruct H as (w3 & E3 & H).
  pose proof (plain_back _ _ _ _ H Hp) as Hp3. destruct (acts_quiet plain h w2 w3 Hq Hp3 E3) as [Eo3 Et3].
  assert (Hg : nth_error (w_models w3) (List.length (w_models w1)) = Some (Logging (w_out w1) true)).
  { eapply acts_kept; [exact E3|]. rewrite Em. apply nth_new. }
  cbn [acts] in H. destruct (act (RunCall _ ls true) w3) as [w4|] eqn:E4; [|discriminate]. injection H as ->.
  apply (run_restores _ _ _ _ _ Hg eq_refl) in E4. destruct E4 as (Ro & _ & Rt).
  split; [exact Ro|]. rewrite Rt, Et3, Et, Eo3, Eo. split.
  - rewrite !received_app, !received_own. rewrite received_none by (auto using possible_sane). cbn [app].
    now rewrite <- app_assoc.
  - intros s Hs. rewrite !received_app, !received_other by exact Hs. now rewrite !app_nil_r.
Qed.
Print Assumptions C39_single.

(** Several models that are finished in reverse order of their creation. *)
Theorem C39_nested : forall plain n h n' w w',
  nested plain n h n' -> n = List.length (w_models w) -> acts h w = Some w' -> plain_ok plain w' ->
  w_out w' = w_out w.
Proof.
  assert (G : forall plain n h n', nested plain n h n' -> forall w w', n = List.length (w_models w) ->
    acts h w = Some w' -> plain_ok plain w' -> w_out w' = w_out w /\ n' = List.length (w_models w')).
  { intros plain n h n' HN. induction HN as [n|n l|n i ls ok|n i ls ok Hi|n log|n log o|n log h n' ls HN IH|n h1 m h2 n' H1 IH1 H2 IH2];
      intros w w' En H Hp.
    - injection H as <-. auto.
    - injection H as <-. auto.
    - cbn [acts act] in H. destruct (nth_error (w_models w) i); [|discriminate]. injection H as <-.
      destruct (outs_spec ls w) as (-> & -> & _). auto.
    - pose proof (plain_back _ _ _ _ H Hp) as Hp0. destruct (acts_quiet plain [RunCall i ls ok] w w') as [-> _]; [constructor; [now right|constructor]|exact Hp|exact H|].
      split; [reflexivity|]. cbn [acts act] in H. destruct (nth_error (w_models w) i) as [g|]; [|discriminate].
      injection H as <-. unfold run_call. destruct (ok && g_logfile g); cbn; destruct (outs_spec ls w) as (_ & -> & _); exact En.
    - injection H as <-. auto.
    - cbn [acts act] in H. injection H as <-. unfold new_model.
      destruct (outs_spec (header log false) (World (w_out w) (w_models w ++ [Logging (w_out w) false]) (w_text w))) as (-> & -> & _).
      cbn. rewrite app_length. cbn. split; [reflexivity|lia].
    - change (acts ([NewModel log true true] ++ (h ++ [RunCall n ls true])) w = Some w') in H.
      apply acts_app in H. destruct H as (w2 & E2 & H). cbn [acts] in E2.
      destruct (act (NewModel log true true) w) as [w2'|] eqn:E2'; [|discriminate]. injection E2 as ->.
      apply new_logs in E2'. destruct E2' as (Eo & Em & Et).
      apply acts_app in H. destruct H as (w3 & E3 & H).
      assert (L2 : S n = List.length (w_models w2)) by (rewrite Em, app_length; cbn; lia).
      pose proof (plain_back _ _ _ _ H Hp) as Hp3. destruct (IH w2 w3 L2 E3 Hp3) as [Eo3 L3].
      assert (Hg : nth_error (w_models w3) n = Some (Logging (w_out w) true)).
      { eapply acts_kept; [exact E3|]. rewrite Em, En. apply nth_new. }
      cbn [acts] in H. destruct (act (RunCall n ls true) w3) as [w4|] eqn:E4; [|discriminate]. injection H as ->.
      apply (run_restores _ _ _ _ _ Hg eq_refl) in E4. destruct E4 as (Ro & Rm & _). rewrite Rm. auto.
    - apply acts_app in H. destruct H as (w1 & E1 & H). pose proof (plain_back _ _ _ _ H Hp) as Hp1.
      destruct (IH1 _ _ En E1 Hp1) as [O1 L1]. destruct (IH2 _ _ L1 H Hp) as [O2 L2]. split; [congruence|exact L2]. }
  intros plain n h n' w w' HN En H Hp. eapply G; eauto.
Qed.
Print Assumptions C39_nested.

(** ** What goes wrong *)
(** A run that raises leaves stdout at the log file. *)
Theorem C39_failed : forall h h' log i ls plain w1 w,
  possible w1 -> i = List.length (w_models w1) ->
  acts (NewModel log true true :: h ++ RunCall i ls false :: h') w1 = Some w ->
  Forall (quiet plain) h -> Forall (quiet plain) h' -> plain_ok plain w ->
  w_out w = LogOf i /\ w_out w <> w_out w1.
Proof.
  intros h h' log i ls plain w1 w Hw -> H Hq Hq' Hp.
  change (acts ([NewModel log true true] ++ (h ++ RunCall (List.length (w_models w1)) ls false :: h')) w1 = Some w) in H.
  apply acts_app in H. destruct H as (w2 & E2 & H). cbn [acts] in E2.
  destruct (act (NewModel log true true) w1) as [w2'|] eqn:E2'; [|discriminate]. injection E2 as ->.
  apply new_logs in E2'. destruct E2' as (Eo & Em & Et).
  assert (Q : Forall (quiet plain) (h ++ RunCall (List.length (w_models w1)) ls false :: h')).
  { apply Forall_app. split; [exact Hq|]. constructor; [now left|exact Hq']. }
  destruct (acts_quiet plain _ w2 w Q Hp H) as [E _].
  split; [congruence|]. rewrite E, Eo. intros E'. apply (possible_new w1 Hw). congruence.
Qed.
Print Assumptions C39_failed.

(** Two models finished in the order of their creation: the output of the first
    run is in the file of the second model, and at the end stdout is the file of
    the first one. *)
Theorem C39_two_refuted : forall log1 log2 ls1 ls2 w1 i w,
  possible w1 -> i = List.length (w_models w1) ->
  acts [NewModel log1 true true; NewModel log2 true true; RunCall i ls1 true; RunCall (S i) ls2 true] w1 = Some w ->
  w_out w = LogOf i /\ w_out w <> w_out w1 /\
  received (LogOf i) (w_text w) = opening log1 true /\
  received (LogOf (S i)) (w_text w) = opening log2 true ++ ls1.
Proof.
  intros log1 log2 ls1 ls2 w1 i w Hw -> H. set (i := List.length (w_models w1)) in *.
  cbn [acts] in H.
  destruct (act (NewModel log1 true true) w1) as [w2|] eqn:E2; [|discriminate].
  destruct (act (NewModel log2 true true) w2) as [w3|] eqn:E3; [|discriminate].
  destruct (act (RunCall i ls1 true) w3) as [w4|] eqn:E4; [|discriminate].
  destruct (act (RunCall (S i) ls2 true) w4) as [w5|] eqn:E5; [|discriminate]. injection H as ->.
  apply new_logs in E2. destruct E2 as (O2 & M2 & T2). fold i in O2, T2.
  apply new_logs in E3. destruct E3 as (O3 & M3 & T3).
  assert (L2 : List.length (w_models w2) = S i) by (rewrite M2, app_length; cbn; fold i; lia).
  rewrite L2 in O3, T3.
  apply (run_restores (Logging (w_out w1) true)) in E4; [|rewrite M3, nth_error_app1, M2 by (rewrite L2; lia); apply nth_new|reflexivity].
  destruct E4 as (O4 & M4 & T4).
  apply (run_restores (Logging (w_out w2) true)) in E5; [|rewrite M4, M3, <- L2; apply nth_new|reflexivity].
  destruct E5 as (O5 & M5 & T5). cbn [g_saved] in *.
  pose proof (possible_new w1 Hw) as N1. fold i in N1.
  assert (N2 : w_out w1 <> LogOf (S i)).
  { intros E. apply possible_sane in Hw. destruct Hw as (A & _). rewrite E in A. cbn in A. fold i in A. lia. }
  assert (N3 : LogOf i <> LogOf (S i)) by (intros E; injection E; lia).
  split; [congruence|]. split; [congruence|].
  rewrite T5, T4, T3, T2, O4, O3.
  split; rewrite !received_app.
  - rewrite (received_none w1 i) by (auto using possible_sane). rewrite received_own, !received_other by congruence.
    now rewrite !app_nil_r.
  - rewrite (received_none w1 (S i)) by (unfold i; auto using possible_sane). rewrite !received_own, !received_other by congruence.
    now rewrite !app_nil_r.
Qed.
Print Assumptions C39_two_refuted.

(** A second run of the same model does not log to the file any more: its lines go
    to the stdout that was restored by the first run. *)
Theorem C39_rerun_refuted : forall log ls1 ls2 w1 i w,
  possible w1 -> i = List.length (w_models w1) ->
  acts [NewModel log true true; RunCall i ls1 true; RunCall i ls2 true] w1 = Some w ->
  w_out w = w_out w1 /\ received (LogOf i) (w_text w) = opening log true ++ ls1 /\
  received (w_out w1) (w_text w) = received (w_out w1) (w_text w1) ++ ls2.
Proof.
  intros log ls1 ls2 w1 i w Hw -> H. set (i := List.length (w_models w1)) in *. cbn [acts] in H.
  destruct (act (NewModel log true true) w1) as [w2|] eqn:E2; [|discriminate].
  destruct (act (RunCall i ls1 true) w2) as [w3|] eqn:E3; [|discriminate].
  destruct (act (RunCall i ls2 true) w3) as [w4|] eqn:E4; [|discriminate]. injection H as ->.
  apply new_logs in E2. destruct E2 as (O2 & M2 & T2). fold i in O2, T2.
  apply (run_restores (Logging (w_out w1) true)) in E3; [|rewrite M2; apply nth_new|reflexivity].
  destruct E3 as (O3 & M3 & T3).
  apply (run_restores (Logging (w_out w1) true)) in E4; [|rewrite M3, M2; apply nth_new|reflexivity].
  destruct E4 as (O4 & M4 & T4). cbn [g_saved] in *.
  pose proof (possible_new w1 Hw) as N1. fold i in N1.
  split; [exact O4|]. rewrite T4, T3, T2, O3, O2. split; rewrite !received_app.
  - rewrite (received_none w1 i) by (auto using possible_sane). rewrite !received_own, received_other by congruence.
    now rewrite app_nil_r.
  - rewrite received_own, !received_other by congruence. now rewrite !app_nil_r.
Qed.
Print Assumptions C39_rerun_refuted.

(** ** The hypotheses can be met *)
Definition start : world := World (User 7) [] [].

(** A logging model inside which another logging model and a plain one are used. *)
Example logs_meet :
  let plain := fun i => Nat.eqb i 2 in
  let inner := [NewModel 1 true true; Print "note"%string; RunCall 1 ["run of the second"%string] true] in
  let h := [NewModel 2 true true; BuildCall 0 ["summary"%string] true] ++ inner
           ++ [NewModel 2 false true; RunCall 2 ["plain"%string] true; RunCall 0 ["run of the first"%string] true] in
  exists w, possible start /\ nested plain 0 ([NewModel 2 true true] ++ (BuildCall 0 ["summary"%string] true :: inner
           ++ [NewModel 2 false true; RunCall 2 ["plain"%string] true]) ++ [RunCall 0 ["run of the first"%string] true]) 3 /\
    acts h start = Some w /\ plain_ok plain w /\ w_out w = User 7 /\
    received (LogOf 1) (w_text w) = [fence; "note"%string; "run of the second"%string] /\
    received (LogOf 0) (w_text w) = [fence; banner; fence; "summary"%string; banner; "plain"%string; "run of the first"%string] /\
    received (User 7) (w_text w) = [].
Proof.
  cbv zeta. eexists. split; [|split; [|split; [vm_compute; reflexivity|]]].
  - exists start, []. split; [split; [reflexivity|exists 7; reflexivity]|]. split; reflexivity.
  - apply (nested_model _ 0 2 _ 3). 
    change (nested (fun i => i =? 2) 1 ([BuildCall 0 ["summary"%string] true] ++
       ((NewModel 1 true true :: [Print "note"%string] ++ [RunCall 1 ["run of the second"%string] true]) ++
        ([NewModel 2 false true] ++ [RunCall 2 ["plain"%string] true]))) 3).
    eapply nested_seq; [apply nested_build|]. eapply nested_seq; [apply nested_model, nested_print|].
    eapply nested_seq; [apply nested_plain|]. now apply nested_plain_run.
  - split; [|repeat split; reflexivity]. intros i Hi (g & Hg & Hl). apply Nat.eqb_eq in Hi. subst i. cbn in Hg.
    injection Hg as <-. discriminate.
Qed.

(** Histories for C39_failed, C39_two_refuted and C39_rerun_refuted. *)
Example logs_fail_meet :
  (exists w, acts ([NewModel 2 true true] ++ [BuildCall 0 ["summary"%string] true] ++ [RunCall 0 ["oops"%string] false; Print "lost"%string]) start = Some w /\
    received (LogOf 0) (w_text w) = [fence; banner; fence; "summary"; "oops"; "lost"]%string) /\
  (exists w, acts [NewModel 2 true true; NewModel 0 true true; RunCall 0 ["a"%string] true; RunCall 1 ["b"%string] true] start = Some w /\
    w_text w = [(LogOf 0, fence); (LogOf 0, banner); (LogOf 0, fence); (LogOf 1, fence); (LogOf 1, "a"); (User 7, "b")]%string) /\
  (exists w, acts [NewModel 0 true true; RunCall 0 ["a"%string] true; RunCall 0 ["b"%string] true] start = Some w /\
    w_text w = [(LogOf 0, fence); (LogOf 0, "a"); (User 7, "b")]%string).
Proof. repeat split; eexists; split; vm_compute; reflexivity. Qed.
