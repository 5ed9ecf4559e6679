(** * Evaluations and sessions of a truss and of the truss with stiffer, thinner bars *)
From Coq Require Import List ZArith Bool Arith Lia Reals Lra.
Import ListNotations.
From Verif Require Import Num NumR Vec Handlers Material Analysis Truss Equil Solver Run ListFacts SpecMech SpecMechR SpecBuild
  BuildFacts EquilFacts MechFacts SpecState FrameFacts EvalFacts SpecRun ReachFacts SpecSame SimFacts SameFacts SameRun SimRun
  SpecSplit SplitFacts SplitRun SpecUnit UnitFacts SpecTrade.
Local Open Scope R_scope.

Definition trade (t : R) (q : truss_q (F:=R)) : truss_q :=
  TrussQ (q_n q) (q_L q) (q_l q) (q_lam q) (t * q_stress q) (t * q_dsde q) (q_A q / t) (q_N q) (option_map (rescaled_state t) (q_state q)).

Lemma trade_KTEE t q : 0 < t -> truss_KTEE (trade t q) = truss_KTEE q.
Proof.
  intros Ht. unfold truss_KTEE. cbn [trade q_n q_L q_l q_dsde q_A q_N]. do 2 f_equal. numR. unfold Rdiv.
  replace (t * q_dsde q * (q_A q * / t) * / q_L q) with (q_dsde q * q_A q * / q_L q * (t * / t)) by ring. rewrite Rinv_r by lra. ring.
Qed.

Lemma umat_reads u e de mat (sve : option (list R)) : umat u e de (firstn (law_numbers u) mat) sve = umat u e de mat sve.
Proof.
  destruct u; cbn [umat law_numbers]; destruct mat as [|x [|y [|z mat]]]; try reflexivity.
Qed.

Lemma trade_q (c c' : ctx R) U U0 sv t b b' q : c_labels c' = c_labels c -> c_coords c' = c_coords c ->
  traded t b b' -> member_q c U U0 sv b = Ok q -> member_q c' U U0 (option_map (rescaled_state t) sv) b' = Ok (trade t q).
Proof.
  intros El Eo (Ht & Ea & Eb & Ew & Em & G1 & G2 & EA) H. unfold member_q in *. rewrite El, Eo, Ea, Eb, Ew.
  unfold truss_quantities in *. cbv zeta in *. apply bind_ok in H. destruct H as ([[s d] sv'] & Hu & H).
  rewrite <- umat_reads, Em. rewrite <- umat_reads in Hu. rewrite (umat_unit t Ht _ _ _ _ _ _ _ _ Hu). cbn [bind].
  rewrite (item_area _ G1) in H. rewrite (item_area _ G2). cbn [bind] in *. injection H as <-. unfold trade. cbn.
  rewrite EA. f_equal. f_equal; numR; field; lra.
Qed.

Lemma traded_len ts ms ms' : traded_by ts ms ms' -> length ts = length ms /\ length ms' = length ms.
Proof. induction 1 as [|t ts b b' ms ms' _ _ [IH1 IH2]]; cbn; auto. Qed.

Lemma map2_const {A} (f : R -> A -> A) (x : A) : (forall t, f t x = x) -> forall ts n, length ts = n -> map2 f ts (repeat x n) = repeat x n.
Proof. intros H. induction ts as [|t ts IH]; intros n <-; cbn; [reflexivity|]. rewrite H, IH; reflexivity. Qed.

Section Eval.
  Variables c c' : ctx R.
  Variables ms ms' : list (member R).
  Variable ts : list R.
  Notation AN := (analysis R).
  Hypothesis Hok : truss_ok c ms.
  Hypothesis Hok' : truss_ok c' ms'.
  Hypothesis Hlab : c_labels c' = c_labels c.
  Hypothesis Hco : c_coords c' = c_coords c.
  Hypothesis Hn1 : c_ndof1 c' = c_ndof1 c.
  Hypothesis Hns : c_nstatev c' = c_nstatev c.
  Hypothesis Htr : traded_by ts ms ms'.

  Lemma trade_quants U U0 row row' qs : (forall k t, nth_error ts k = Some t -> row' k = option_map (rescaled_state t) (row k)) ->
    quants c U U0 row 0 ms qs -> quants c' U U0 row' 0 ms' (map2 trade ts qs).
  Proof.
    assert (G : forall k ts ms ms', traded_by ts ms ms' -> forall qs,
      (forall i t, nth_error ts i = Some t -> row' (k + i)%nat = option_map (rescaled_state t) (row (k + i)%nat)) ->
      quants c U U0 row k ms qs -> quants c' U U0 row' k ms' (map2 trade ts qs)).
    { clear - Hlab Hco. intros k ts ms ms' H. revert k. induction H as [|t ts b b' ms ms' Hb H IH]; intros k qs Hr Hq; inversion Hq; subst; cbn [map2]; constructor.
      - pose proof (Hr 0%nat t eq_refl) as E. rewrite Nat.add_0_r in E. rewrite E. eapply trade_q; eassumption.
      - apply IH; [|assumption]. intros i t' Hi. specialize (Hr (S i) t' Hi). rewrite Nat.add_succ_comm. exact Hr. }
    intros Hr Hq. apply (G 0%nat ts ms ms'); auto.
  Qed.

  Lemma trade_r qs r : fold_left (r_member c') (combine ms' (map2 trade ts qs)) r = fold_left (r_member c) (combine ms qs) r.
  Proof.
    clear - Hlab Htr. revert qs r. induction Htr as [|t l b b' l1 l2 Hb H IH]; intros [|q qs] r; cbn [map2 combine fold_left]; auto.
    rewrite IH by exact H. destruct Hb as (_ & Ea & Eb & _). unfold r_member. cbn [fst snd trade q_N q_n]. rewrite Hlab, Ea, Eb. reflexivity.
  Qed.

  Lemma trade_K qs K : fold_left (k_member c') (combine ms' (map2 trade ts qs)) K = fold_left (k_member c) (combine ms qs) K.
  Proof.
    clear - Hlab Htr. revert qs K. induction Htr as [|t l b b' l1 l2 Hb H IH]; intros [|q qs] K; cbn [map2 combine fold_left]; auto.
    rewrite IH by exact H. destruct Hb as (Ht & Ea & Eb & _). unfold k_member. cbn [fst snd]. rewrite (trade_KTEE t q Ht), Hlab, Ea, Eb. reflexivity.
  Qed.

  Definition TSim (a a' : AN) : Prop := traded_result ts a a' /\ sizes_ok c ms a /\ sizes_ok c' ms' a'.

  Lemma trade_row a a' k t : traded_result ts a a' -> nth_error ts k = Some t -> state_row c' a' k = option_map (rescaled_state t) (state_row c a k).
  Proof.
    intros (_ & _ & _ & _ & _ & _ & _ & _ & _ & _ & _ & _ & _ & _ & _ & _ & _ & _ & _ & _ & _ & P) Hk.
    unfold state_row. rewrite Hns, P. destruct (0 <? c_nstatev c)%Z; [|reflexivity]. destruct (a_state a) as [sv|]; [|reflexivity].
    cbn [option_map]. rewrite map2_nth, Hk. destruct (nth_error sv k); reflexivity.
  Qed.

  Lemma map2_map_trade {A} (f : truss_q (F:=R) -> A) qs : length qs = length ms -> (forall t q, f (trade t q) = f q) ->
    map f (map2 trade ts qs) = map f qs.
  Proof.
    intros Hl Hf. destruct (traded_len _ _ _ Htr) as [L1 _]. rewrite <- L1 in Hl. clear - Hl Hf. revert qs Hl.
    induction ts as [|t l IH]; intros [|q qs] Hl; try discriminate; cbn [map2 map]; auto. rewrite Hf, IH; [reflexivity|]. injection Hl as Hl. exact Hl.
  Qed.

  Lemma map2_map_scaled {A} (f : truss_q (F:=R) -> A) (g : R -> A -> A) qs : (forall t q, f (trade t q) = g t (f q)) ->
    map f (map2 trade ts qs) = map2 g ts (map f qs).
  Proof. intros Hf. clear - Hf. revert qs. induction ts as [|t l IH]; intros [|q qs]; cbn [map2 map]; auto. rewrite Hf, IH. reflexivity. Qed.

  Lemma trade_loop st u lam w a a' qs : TSim a a' ->
    quants c (a_U a) (a_U0 a) (state_row c a) 0 ms qs -> quants c' (a_U a) (a_U0 a) (state_row c' a') 0 ms' (map2 trade ts qs) ->
    TSim (loop_an st c u lam w (zipk 0 ms qs) a) (loop_an st c' u lam w (zipk 0 ms' (map2 trade ts qs)) a').
  Proof.
    set (qs' := map2 trade ts qs). intros HS Hq Hq'. destruct HS as (Hsame & Hsz & Hsz').
    destruct Hsame as (E1 & E2 & E3 & E4 & E5 & E6 & E7 & E8 & E9 & E10 & E11 & E12 & E13 & E14 & E15 & E16 & E17 & E18 & P1 & P2 & P3 & P4).
    pose proof (quants_length _ _ _ _ _ _ _ Hq) as Hlq. pose proof (quants_length _ _ _ _ _ _ _ Hq') as Hlq'.
    split; [|split; apply loop_sizes; auto; intros x Hx; eapply zipk_In; eauto].
    pose proof (loop_frame st c u lam w (zipk 0 ms qs) a) as Hf.
    pose proof (loop_frame st c' u lam w (zipk 0 ms' qs') a') as Hf'. cbn zeta in Hf, Hf'.
    destruct Hf as (F1 & F2 & F3 & F4 & F5 & F6 & F7 & F8 & F9 & F10 & F11 & F12 & F13 & F14).
    destruct Hf' as (G1 & G2 & G3 & G4 & G5 & G6 & G7 & G8 & G9 & G10 & G11 & G12 & G13 & G14).
    assert (Hlp : a_lpf (loop_an st c' u lam w (zipk 0 ms' qs') a') = a_lpf (loop_an st c u lam w (zipk 0 ms qs) a) /\
                  a_Vred (loop_an st c' u lam w (zipk 0 ms' qs') a') = a_Vred (loop_an st c u lam w (zipk 0 ms qs) a)).
    { destruct (w && (0 <? c_nstatev c)%Z) eqn:Ew.
      - apply andb_true_iff in Ew. destruct Ew as [-> Ew]. apply Z.ltb_lt in Ew.
        destruct (loop_written st c u lam (zipk 0 ms qs) a Ew) as [-> ->]. rewrite <- Hns in Ew.
        destruct (loop_written st c' u lam (zipk 0 ms' qs') a' Ew) as [-> ->].
        destruct (traded_len _ _ _ Htr) as [_ L2]. unfold zipk. clear - Hlq Hlq' L2 E10 E11.
        destruct ms as [|? ?], ms' as [|? ?]; try discriminate; cbn; auto.
        destruct qs, qs'; try discriminate; cbn; auto.
      - destruct (loop_unwritten st c u lam w (zipk 0 ms qs) a Ew) as (-> & -> & _). rewrite <- Hns in Ew.
        destruct (loop_unwritten st c' u lam w (zipk 0 ms' qs') a' Ew) as (-> & -> & _). auto. }
    assert (Hst : a_state (loop_an st c' u lam w (zipk 0 ms' qs') a') = option_map (map2 rescaled_state ts) (a_state (loop_an st c u lam w (zipk 0 ms qs) a))).
    { destruct (w && (0 <? c_nstatev c)%Z) eqn:Ew.
      - apply andb_true_iff in Ew. destruct Ew as [-> Ew]. apply Z.ltb_lt in Ew.
        pose proof Ew as Ew'. rewrite <- Hns in Ew'. destruct st.
        + pose proof (rows_exist c c eq_refl eq_refl _ _ _ _ _ _ Hsz Ew Hq) as R1.
          pose proof (rows_exist c c eq_refl eq_refl _ _ _ _ _ _ Hsz' Ew' Hq') as R2.
          assert (Hsv : exists sv, a_state a = Some sv /\ length sv = length ms) by (apply Hsz; exact Ew).
          assert (Hsv' : exists sv, a_state a' = Some sv /\ length sv = length ms') by (apply Hsz'; exact Ew').
          destruct Hsv as (sv & Es & Hsl), Hsv' as (sv' & Es' & Hsl').
          rewrite (loop_state_write c u lam ms qs a sv _ Ew Es Hsl Hlq R1).
          rewrite (loop_state_write c' u lam ms' qs' a' sv' _ Ew' Es' Hsl' Hlq' R2). cbn [option_map]. f_equal.
          apply map2_map_scaled. intros t q. cbn. destruct (q_state q); reflexivity.
        + assert (HK : forall cc l an, a_state (loop_an StK cc u lam true l an) = a_state an).
          { intros cc l an. apply loop_same. intros x y. unfold upd_write.
            destruct (true && _); cbn; [|reflexivity]. destruct (a_state y); reflexivity. }
          rewrite !HK. exact P4.
      - destruct (loop_unwritten st c u lam w (zipk 0 ms qs) a Ew) as (_ & _ & ->). rewrite <- Hns in Ew.
        destruct (loop_unwritten st c' u lam w (zipk 0 ms' qs') a' Ew) as (_ & _ & ->). exact P4. }
    assert (Hr : a_r (loop_an st c' u lam w (zipk 0 ms' qs') a') = a_r (loop_an st c u lam w (zipk 0 ms qs) a) /\
                 a_K (loop_an st c' u lam w (zipk 0 ms' qs') a') = a_K (loop_an st c u lam w (zipk 0 ms qs) a)).
    { destruct st.
      - rewrite !loop_r, !loop_stage_G by auto. split; [|exact E6]. rewrite E4. apply trade_r.
      - rewrite !loop_K by auto.
        pose proof (loop_stage_K c u lam w (zipk 0 ms qs) a) as (-> & _).
        pose proof (loop_stage_K c' u lam w (zipk 0 ms' qs') a') as (-> & _). split; [exact E4|]. rewrite E6. apply trade_K. }
    assert (Hel : a_stretch (loop_an st c' u lam w (zipk 0 ms' qs') a') = a_stretch (loop_an st c u lam w (zipk 0 ms qs) a) /\
                  a_force (loop_an st c' u lam w (zipk 0 ms' qs') a') = a_force (loop_an st c u lam w (zipk 0 ms qs) a) /\
                  a_stress (loop_an st c' u lam w (zipk 0 ms' qs') a') = map2 Rmult ts (a_stress (loop_an st c u lam w (zipk 0 ms qs) a))).
    { destruct st.
      - rewrite !loop_stretch, !loop_force, !loop_stress by (auto; first [apply Hsz|apply Hsz']).
        split; [apply map2_map_trade; auto|]. split; [apply map2_map_trade; auto|]. apply map2_map_scaled. reflexivity.
      - pose proof (loop_stage_K c u lam w (zipk 0 ms qs) a) as (_ & -> & -> & ->).
        pose proof (loop_stage_K c' u lam w (zipk 0 ms' qs') a') as (_ & -> & -> & ->). auto. }
    destruct Hlp as [Hlp1 Hlp2], Hr as [Hr1 Hr2], Hel as (Hel1 & Hel2 & Hel3).
    unfold traded_result. rewrite F1, F2, F3, F4, F5, F6, F7, F8, F9, F10, F11, F12, F13, F14.
    rewrite G1, G2, G3, G4, G5, G6, G7, G8, G9, G10, G11, G12, G13, G14.
    repeat match goal with |- _ /\ _ => split end; assumption.
  Qed.

  Lemma trade_elem_loop st u lam w a a' b : TSim a a' -> elem_loop c st u lam w a = Ok b ->
    exists b', elem_loop c' st u lam w a' = Ok b' /\ TSim b b'.
  Proof.
    intros HS H. pose proof HS as (Hc & Hsz & Hsz').
    destruct (elem_loop_inv _ _ _ _ _ _ _ _ Hok Hsz H) as (qs & Hq & ->).
    pose proof (trade_quants _ _ _ (state_row c' a') _ (fun k t Hk => trade_row _ _ k t Hc Hk) Hq) as Hq'.
    pose proof (trade_loop st u lam w _ _ _ HS Hq Hq') as G.
    destruct Hc as (_ & E2 & E3 & _). rewrite <- E2, <- E3 in Hq'.
    eexists. split; [apply elem_loop_ok; [exact Hok'|exact Hsz'|exact Hq']|exact G].
  Qed.

  Lemma trade_prepare st V V0 a a' b u lam : TSim a a' -> equil_prepare c st V V0 a = Ok (b, u, lam) ->
    exists b', equil_prepare c' st V V0 a' = Ok (b', u, lam) /\ TSim b b'.
  Proof.
    intros (Hsame & Hsz & Hsz') H. pose proof (gprepare_sizes _ _ _ _ _ _ _ _ _ Hsz H) as Hsz1.
    destruct Hsame as (E1 & E2 & E3 & E4 & E5 & E6 & E7 & E8 & E9 & E10 & E11 & E12 & E13 & E14 & E15 & E16 & E17 & E18 & P1 & P2 & P3 & P4).
    assert (G : exists b', equil_prepare c' st V V0 a' = Ok (b', u, lam) /\ traded_result ts b b').
    { unfold equil_prepare in *. rewrite Hn1, E11. cbv zeta in *.
      assert (X1 : forall s, a_U (match s with StG => set_r (map (fun _ => vzero) (a_r a')) a' | StK => set_K (map (map (fun _ => mzero)) (a_K a')) a' end)
              = a_U (match s with StG => set_r (map (fun _ => vzero) (a_r a)) a | StK => set_K (map (map (fun _ => mzero)) (a_K a)) a end)) by (intros []; exact E2).
      assert (X2 : forall s, a_U0 (match s with StG => set_r (map (fun _ => vzero) (a_r a')) a' | StK => set_K (map (map (fun _ => mzero)) (a_K a')) a' end)
              = a_U0 (match s with StG => set_r (map (fun _ => vzero) (a_r a)) a | StK => set_K (map (map (fun _ => mzero)) (a_K a)) a end)) by (intros []; exact E3).
      assert (X3 : forall s, a_DOF1 (match s with StG => set_r (map (fun _ => vzero) (a_r a')) a' | StK => set_K (map (map (fun _ => mzero)) (a_K a')) a' end)
              = a_DOF1 (match s with StG => set_r (map (fun _ => vzero) (a_r a)) a | StK => set_K (map (map (fun _ => mzero)) (a_K a)) a end)) by (intros []; exact E8).
      rewrite X1, X2, X3. apply bind_ok in H. destruct H as (U & HU & H). rewrite HU. cbn [bind].
      apply bind_ok in H. destruct H as (U0 & HU0 & H). rewrite HU0. cbn [bind]. injection H as <- <- <-.
      eexists. split; [reflexivity|].
      unfold traded_result. destruct st; cbn -[map2]; rewrite ?E4, ?E6; repeat match goal with |- _ /\ _ => split end; auto. }
    destruct G as (b' & Hb' & Hcore). exists b'. split; [exact Hb'|]. split; [exact Hcore|]. split; [exact Hsz1|].
    eapply gprepare_sizes; eassumption.
  Qed.

  Lemma trade_equilibrium V V0 w a a' b x : TSim a a' -> equilibrium c V V0 w a = Ok (b, x) ->
    exists b', equilibrium c' V V0 w a' = Ok (b', x) /\ TSim b b'.
  Proof.
    intros HS H. unfold equilibrium in *.
    apply bind_ok in H. destruct H as ([[a1 u] lam] & Hp & H).
    destruct (trade_prepare _ _ _ _ _ _ _ _ HS Hp) as (a1' & -> & S1). cbn [bind].
    apply bind_ok in H. destruct H as (a2 & Hl & H).
    destruct (trade_elem_loop _ _ _ _ _ _ _ S1 Hl) as (a2' & -> & S2). cbn [bind].
    destruct S2 as [(E1 & E2 & E3 & E4 & E5 & E6 & E7 & E8 & E9 & E10 & E11 & E12 & E13 & E14 & E15 & E16 & E17 & E18 & P1 & P2 & P3 & P4) Hsz].
    rewrite E4, E8, E17, E18.
    apply bind_ok in H. destruct H as (s1 & -> & H). cbn [bind].
    apply bind_ok in H. destruct H as (g & -> & H). cbn [bind].
    apply bind_ok in H. destruct H as (gr & -> & H). cbn [bind]. injection H as <- <-.
    eexists. split; [reflexivity|]. split; [|exact Hsz].
    unfold traded_result. cbn -[map2]. repeat match goal with |- _ /\ _ => split end; auto.
  Qed.

  Lemma trade_stiffness V a a' b x : TSim a a' -> stiffness c V a = Ok (b, x) ->
    exists b', stiffness c' V a' = Ok (b', x) /\ TSim b b'.
  Proof.
    intros HS H. unfold stiffness in *.
    apply bind_ok in H. destruct H as ([[a1 u] lam] & Hp & H).
    destruct (trade_prepare _ _ _ _ _ _ _ _ HS Hp) as (a1' & -> & S1). cbn [bind].
    apply bind_ok in H. destruct H as (a2 & Hl & H).
    destruct (trade_elem_loop _ _ _ _ _ _ _ S1 Hl) as (a2' & -> & S2). cbn [bind].
    destruct S2 as [(E1 & E2 & E3 & E4 & E5 & E6 & E7 & E8 & E9 & E10 & E11 & E12 & E13 & E14 & E15 & E16 & E17 & E18 & P1 & P2 & P3 & P4) Hsz].
    rewrite E6, E8. apply bind_ok in H. destruct H as (Kr & -> & H). cbn [bind]. injection H as <- <-.
    eexists. split; [reflexivity|]. split; [|exact Hsz].
    unfold traded_result. cbn -[map2]. repeat match goal with |- _ /\ _ => split end; auto.
  Qed.

  Lemma tsim_set : set_closed TSim.
  Proof.
    intros a a' ((E1 & E2 & E3 & E4 & E5 & E6 & E7 & E8 & E9 & E10 & E11 & E12 & E13 & E14 & E15 & E16 & E17 & E18 & P1 & P2 & P3 & P4) & Hsz & Hsz').
    pose proof Hsz as (S1 & S2 & S3 & S4 & S5 & S6 & S7 & S8 & S9 & S10 & S11 & S12).
    pose proof Hsz' as (T1 & T2 & T3 & T4 & T5 & T6 & T7 & T8 & T9 & T10 & T11 & T12).
    unfold TSim, traded_result, sizes_ok.
    repeat match goal with |- _ /\ _ => split | |- forall _, _ => intro end; cbn -[map2]; auto.
    all: eauto.
  Qed.

  Lemma tsim_fld : fields_same TSim.
  Proof.
    intros a a' ((E1 & E2 & E3 & E4 & E5 & E6 & E7 & E8 & E9 & E10 & E11 & E12 & E13 & E14 & E15 & E16 & _) & _). auto.
  Qed.
End Eval.

Lemma traded_laws ts (ms ms' : list (member R)) : traded_by ts ms ms' ->
  map (fun b => law_code (mb_law b)) ms' = map (fun b => law_code (mb_law b)) ms.
Proof. induction 1 as [|t ts b b' ms ms' Hb H IH]; cbn [map]; [reflexivity|]. destruct Hb as (_ & _ & _ & -> & _). rewrite IH. reflexivity. Qed.

Lemma traded_back ts ms ms' : traded_by ts ms ms' -> traded_by (map Rinv ts) ms' ms.
Proof.
  induction 1 as [|t ts b b' ms ms' Hb H IH]; cbn [map]; constructor; auto.
  destruct Hb as (Ht & Ea & Eb & Ew & Em & G1 & G2 & EA). split; [apply Rinv_0_lt_compat; exact Ht|].
  do 3 (split; [auto|]). split; [|split; [exact G2|]; split; [exact G1|rewrite EA; field; lra]].
  rewrite Ew, Em, map_map. rewrite <- (map_id (firstn _ (mb_mat b))) at 1. apply map_ext. intros x. field. lra.
Qed.

Section Build.
  Variable argsortZ : list Z -> list nat.
  Hypothesis HA : argsort_ok argsortZ.

  Lemma trade_build (m m' mb mb' : model R) ns ms bs fs ns' ms' bs' fs' ts : same_but_bars m m' ->
    described m ns ms bs fs -> described m' ns' ms' bs' fs' -> traded_by ts ms ms' ->
    build argsortZ m = Ok mb -> build argsortZ m' = Ok mb' ->
    exists c c', truss_ok c ms /\ truss_ok c' ms' /\ c_labels c' = c_labels c /\ c_coords c' = c_coords c /\
      c_ndof1 c' = c_ndof1 c /\ c_nstatev c' = c_nstatev c /\ gmsim c c' (TSim c c' ms ms' ts) mb mb'.
  Proof.
    intros (En & Eb & Ef & Es) Hd Hd' Hsp H H'. pose proof H as HB. pose proof H' as HB'.
    pose proof Hd as (_ & _ & _ & (eh0 & De & Dms) & _). pose proof Hd' as (_ & _ & _ & (eh0' & De' & Dms') & _).
    apply build_inv in H. apply build_inv in H'.
    destruct H as (nh0 & eh & nh & bh & fh & D0 & D1 & an & E1 & E2 & Ef1 & Eb1 & Eo & C1 & C2 & Hd0 & Hd1 & Han & Em).
    destruct H' as (nh0' & eh' & nh' & bh' & fh' & D0' & D1' & an' & E1' & E2' & Ef1' & Eb1' & Eo' & C1' & C2' & Hd0' & Hd1' & Han' & Em').
    cbv zeta in *. rewrite En in E1'. rewrite Eb in *. rewrite Ef in *. rewrite Es in *.
    assert (nh0' = nh0) by congruence. subst nh0'. assert (nh' = nh) by congruence. subst nh'.
    assert (bh' = bh) by congruence. subst bh'. assert (fh' = fh) by congruence. subst fh'.
    assert (D0' = D0) by congruence. assert (D1' = D1) by congruence. subst D0' D1'.
    assert (eh0 = eh) by congruence. assert (eh0' = eh') by congruence. subst eh0 eh0'.
    pose proof (build_reached _ _ _ _ _ _ _ HA Hd HB) as (nhA & ehA & fhA & uA & nsA & A1 & A2 & A3 & A4 & _ & _ & _ & _ & Htr & _ & _ & _ & _ & _ & _ & _ & (Hsz & _)).
    pose proof (build_reached _ _ _ _ _ _ _ HA Hd' HB') as (nhB & ehB & fhB & uB & nsB & B1 & B2 & B3 & B4 & _ & _ & _ & _ & Htr' & _ & _ & _ & _ & _ & _ & _ & (Hsz' & _)).
    assert (Le : length (el_labels eh) = length ms) by (destruct Dms as (-> & _); apply map_length).
    assert (Le' : length (el_labels eh') = length ms') by (destruct Dms' as (-> & _); apply map_length).
    destruct (traded_len _ _ _ Hsp) as [L1 L2].
    assert (Hmt : existsb (Z.eqb 2) (el_mtype eh') = existsb (Z.eqb 2) (el_mtype eh)).
    { destruct Dms as (_ & _ & -> & _), Dms' as (_ & _ & -> & _). rewrite (traded_laws _ _ _ Hsp). reflexivity. }
    exists (ctx_of mb uA nhA ehA), (ctx_of mb' uB nhB ehB).
    rewrite Em in A1, A2, A3, A4. rewrite Em' in B1, B2, B3, B4. cbn [m_nodes m_elems m_forces m_built] in *.
    injection A1 as <-. injection A2 as <-. injection A3 as <-. injection A4 as <-.
    injection B1 as <-. injection B2 as <-. injection B3 as <-. injection B4 as <-.
    rewrite Le in Han. rewrite Le', L2, Hmt in Han'.
    set (cc := ctx_of mb _ _ _) in *. set (cc' := ctx_of mb' _ _ _) in *. cbn [u_an] in *.
    assert (Hco : TSim cc cc' ms ms' ts an an').
    { split; [|split; assumption]. clear Hsz Hsz'.
      unfold analysis_build in Han, Han'. apply bind_ok in Han. destruct Han as (ur & Hur & Han). rewrite Hur in Han'. cbn [bind] in Han'.
      injection Han as <-. injection Han' as <-.
      unfold traded_result. cbn -[map2]. do 20 (split; [reflexivity|]).
      split; [symmetry; apply map2_const; [apply Rmult_0_r|exact L1]|].
      destruct (0 <? _)%Z; [|reflexivity]. cbn [option_map]. f_equal. symmetry. apply map2_const; [|exact L1].
      intros t. match goal with |- rescaled_state t (repeat _ ?n) = _ => destruct n; cbn; [reflexivity|] end. numR. rewrite Rmult_0_r. reflexivity. }
    pose proof (tsim_set cc cc' ms ms' ts) as Hset.
    assert (HR : TSim cc cc' ms ms' ts (set_lpf f0 (set_fconst (repeat (repeat f0 3) (length (n_labels nh0))) (set_forces (e_rows fh) an)))
                                (set_lpf f0 (set_fconst (repeat (repeat f0 3) (length (n_labels nh0))) (set_forces (e_rows fh) an')))).
    { apply (Hset (set_fconst _ _)), (Hset (set_forces _ _)), Hset, Hco. }
    split; [exact Htr|]. split; [exact Htr'|].
    subst cc cc'. subst mb mb'. unfold ctx_of at 1 2 3 4 5 6 7 8. cbn [c_labels c_coords c_ndof1 c_nstatev m_set].
    do 3 (split; [reflexivity|]). split; [cbn; rewrite Hmt; reflexivity|].
    (split; [cbn; rewrite Hmt; reflexivity|]; do 8 eexists; cbn [m_built m_nodes m_elems m_forces];
        do 8 (split; [reflexivity|]); split; [reflexivity|]; do 2 (split; [reflexivity|]);
        cbn [u_an u_R u_lpf_end]; split; [exact Hco|]; split; [constructor; [exact HR|constructor]|]; auto).
  Qed.

  Variable argsortF : list R -> list nat.
  Variable solve : list (list R) -> list R -> list R.

  Lemma trade_play (m m' m1 : model R) ns ms bs fs ns' ms' bs' fs' ts acts out : same_but_bars m m' ->
    described m ns ms bs fs -> described m' ns' ms' bs' fs' -> traded_by ts ms ms' ->
    build_and_play argsortF solve argsortZ m acts = Ok (m1, out) ->
    exists m1', build_and_play argsortF solve argsortZ m' acts = Ok (m1', out) /\ traded_results ts m1 m1'.
  Proof.
    intros Hs Hd Hd' Hsp H. unfold build_and_play in *. apply bind_ok in H. destruct H as (mb & Hb & H).
    destruct (build_other _ _ _ _ _ _ _ _ _ _ _ _ Hs Hd Hd' Hb) as (mb' & Hb').
    destruct (trade_build _ _ _ _ _ _ _ _ _ _ _ _ _ Hs Hd Hd' Hsp Hb Hb') as (c & c' & Hok & Hok' & E1 & E2 & E3 & E4 & HM).
    rewrite Hb'. cbn [bind].
    destruct (gplay_sim argsortF solve c c' (TSim c c' ms ms' ts) (tsim_set _ _ _ _ _) (tsim_fld _ _ _ _ _)) with (acts := acts) (m := mb) (m' := mb') (m1 := m1) (out := out) as (m1' & H' & HM').
    - intros V V0 w a a' b x HS He. eapply trade_equilibrium; eassumption.
    - intros V a a' b x HS He. eapply trade_stiffness; eassumption.
    - exact HM.
    - exact H.
    - exists m1'. split; [exact H'|].
      destruct HM' as (_ & u & u' & nh & nh' & eh & eh' & fh & fh' & Eu & Eu' & _ & _ & _ & _ & _ & _ & _ & _ & _ & HS & HR & HL & _).
      exists u, u'. split; [exact Eu|]. split; [exact Eu'|]. split; [|split; [exact HL|apply HS]].
      clear - HR. induction HR as [|x y l l' Hx _ IH]; constructor; [apply Hx|exact IH].
  Qed.
End Build.
