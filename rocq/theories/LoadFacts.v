(** * Lemmas about strain paths of the plastic law over R *)
From Coq Require Import List ZArith Reals Lra Psatz Sorting.Sorted.
Import ListNotations.
From Verif Require Import Num NumR Material SpecMaterial MaterialFacts.
Local Open Scope R_scope.

Lemma neg_le_abs x : - x <= Rabs x.
Proof. rewrite <- Rabs_Ropp. apply Rle_abs. Qed.
Lemma abs_between x y : Rabs x <= y -> - y <= x <= y.
Proof. pose proof (Rle_abs x). pose proof (neg_le_abs x). lra. Qed.

Lemma last_cons_last {A} (l : list A) : forall a d, last (a :: l) d = last l a.
Proof.
  induction l as [|x l IH]; intros a d; [reflexivity|]. change (last (x :: l) d = last (x :: l) a). rewrite !IH. reflexivity.
Qed.

Section Load.
  Variables E K Sy : R.
  Hypothesis HE : 0 < E.
  Hypothesis HK : 0 <= K.
  Hypothesis HS : 0 < Sy.

  (** Movement of the plastic strain. *)
  Definition flow (Y p e : R) : R := (Rmax 0 (E * (e - p) - Y) - Rmax 0 (- (E * (e - p)) - Y)) / (E + K).

  Lemma flow_eq Y p e : 0 < Y ->
    (Rabs (E * (e - p)) <= Y /\ flow Y p e = 0) \/
    (Y < E * (e - p) /\ flow Y p e = (E * (e - p) - Y) / (E + K) /\ 0 < flow Y p e) \/
    (E * (e - p) < - Y /\ flow Y p e = (E * (e - p) + Y) / (E + K) /\ flow Y p e < 0).
  Proof.
    intros HY. unfold flow. set (tr := E * (e - p)). unfold Rmax, Rabs.
    destruct (Rle_dec 0 (tr - Y)); destruct (Rle_dec 0 (- tr - Y)); destruct (Rcase_abs tr); try lra.
    - destruct (Req_dec tr Y) as [->|]; [left; split; [lra|]; unfold Rdiv; ring|].
      right; left. split; [lra|]. split; [f_equal; lra|]. apply Rdiv_lt_0_compat; lra.
    - destruct (Req_dec tr (- Y)) as [->|]; [left; split; [lra|]; unfold Rdiv; ring|].
      right; right. split; [lra|]. split; [f_equal; lra|]. assert (0 < (- tr - Y) / (E + K)) by (apply Rdiv_lt_0_compat; lra).
      unfold Rdiv in *. lra.
    all: left; split; [lra|]; unfold Rdiv; ring.
  Qed.

  Lemma umat_flow e de y p s t y' p' : y = 0 \/ Sy <= y ->
    umat_elplast_iso e de [E; K; Sy] (Some [y; p]) = Ok (s, t, Some [y'; p']) ->
    let Y := yield_before Sy y in
    p' = p + flow Y p e /\ y' = Y + K * Rabs (flow Y p e) /\ s = E * (e - p') /\ Sy <= y' /\ Rabs s <= y'.
  Proof.
    intros Hy H. cbn zeta. pose proof (yield_before_pos Sy y Hy) as HY. set (Y := yield_before Sy y) in *.
    pose proof (umat_pl_spec E K Sy HE HK HS _ _ _ _ _ _ _ _ Hy H) as (Hs & Hy' & Hle & Hc). fold Y in Hy', Hc.
    assert (Hp : p' = p + flow Y p e).
    { destruct (flow_eq Y p e ltac:(lra)) as [(A & ->)|[(A & -> & _)|(A & -> & _)]].
      - destruct Hc as [(_ & _ & -> & _)|(C & _)]; lra.
      - rewrite Rabs_right in Hc by lra. destruct Hc as [(C & _)|(_ & _ & _ & dg & _ & -> & -> & ->)]; [lra|].
        rewrite fsignR. destruct (Rlt_dec 0 _); [ring|lra].
      - rewrite Rabs_left in Hc by lra. destruct Hc as [(C & _)|(_ & _ & _ & dg & _ & -> & -> & ->)]; [lra|].
        rewrite fsignR. destruct (Rlt_dec 0 _); [lra|]. destruct (Rlt_dec _ 0); [|lra]. unfold Rdiv. ring. }
    split; [exact Hp|]. replace (Rabs (flow Y p e)) with (Rabs (p' - p)) by (f_equal; lra).
    split; [exact Hy'|]. split; [exact Hs|]. split; [|exact Hle]. pose proof (Rabs_pos (p' - p)). nra.
  Qed.

  (** Slope between any two strains. *)
  Lemma flow_slope Y p e1 e2 : 0 < Y -> e1 <= e2 ->
    0 <= flow Y p e2 - flow Y p e1 <= E / (E + K) * (e2 - e1).
  Proof.
    intros HY He.
    assert (Hi : 0 < / (E + K)) by (apply Rinv_0_lt_compat; lra).
    assert (Hm : E * (e1 - p) <= E * (e2 - p)) by nra.
    unfold flow, Rdiv. rewrite <- Rmult_minus_distr_r.
    set (a := E * (e1 - p)) in *. set (b := E * (e2 - p)) in *.
    assert (Hd : E * / (E + K) * (e2 - e1) = (b - a) * / (E + K)) by (unfold a, b; ring).
    rewrite Hd. unfold Rmax. destruct (Rle_dec 0 (b - Y)), (Rle_dec 0 (- b - Y)), (Rle_dec 0 (a - Y)), (Rle_dec 0 (- a - Y)); try lra; split;
      try (apply Rmult_le_pos; lra); try (apply Rmult_le_compat_r; lra).
  Qed.

  Lemma slope e1 e2 de1 de2 y p s1 t1 st1 s2 t2 st2 : y = 0 \/ Sy <= y -> e1 <= e2 ->
    umat_elplast_iso e1 de1 [E; K; Sy] (Some [y; p]) = Ok (s1, t1, st1) ->
    umat_elplast_iso e2 de2 [E; K; Sy] (Some [y; p]) = Ok (s2, t2, st2) ->
    E * K / (E + K) * (e2 - e1) <= s2 - s1 <= E * (e2 - e1).
  Proof.
    intros Hy He H1 H2. pose proof (yield_before_pos Sy y Hy) as HY.
    destruct (umat_pl_total E K Sy e1 de1 y p) as (s1' & t1' & y1 & p1 & U1). destruct (umat_pl_total E K Sy e2 de2 y p) as (s2' & t2' & y2 & p2 & U2).
    rewrite U1 in H1. injection H1 as <- <- <-. rewrite U2 in H2. injection H2 as <- <- <-.
    apply umat_flow in U1; auto. apply umat_flow in U2; auto. destruct U1 as (-> & _ & -> & _). destruct U2 as (-> & _ & -> & _).
    pose proof (flow_slope (yield_before Sy y) p e1 e2 ltac:(lra) He) as [F1 F2].
    set (f1 := flow _ _ e1) in *. set (f2 := flow _ _ e2) in *.
    assert (Ee : E * K / (E + K) * (e2 - e1) = E * (e2 - e1) - E * (E / (E + K) * (e2 - e1))) by (field; lra).
    rewrite Ee. split; nra.
  Qed.

  (** Two evaluations in one direction are one. *)
  Lemma flow_twice Y p e1 e2 : 0 < Y -> - Y <= E * (e1 - p) <= E * (e2 - p) \/ E * (e2 - p) <= E * (e1 - p) <= Y ->
    let Y1 := Y + K * Rabs (flow Y p e1) in let p1 := p + flow Y p e1 in
    p1 + flow Y1 p1 e2 = p + flow Y p e2 /\ Y1 + K * Rabs (flow Y1 p1 e2) = Y + K * Rabs (flow Y p e2).
  Proof.
    intros HY Hm. cbn zeta. set (Y1 := Y + K * Rabs (flow Y p e1)). set (p1 := p + flow Y p e1).
    assert (HY1 : 0 < Y1) by (unfold Y1; pose proof (Rabs_pos (flow Y p e1)); nra).
    assert (Hsum : flow Y p e1 + flow Y1 p1 e2 = flow Y p e2 /\ 0 <= flow Y p e1 * flow Y1 p1 e2).
    { destruct (flow_eq Y p e1 HY) as [(A & B)|[(A & B & C)|(A & B & C)]].
      - assert (Y1 = Y) as -> by (unfold Y1; rewrite B, Rabs_R0; ring). assert (p1 = p) as -> by (unfold p1; rewrite B; ring). rewrite B. split; lra.
      - destruct Hm as [Hm|Hm]; [|lra].
        assert (T : E * (e2 - p1) - Y1 = E * (e2 - p) - E * (e1 - p)).
        { unfold Y1, p1. rewrite Rabs_right by lra. rewrite B. field. lra. }
        destruct (flow_eq Y p e2 HY) as [(A2 & B2)|[(A2 & B2 & C2)|(A2 & B2 & C2)]]; try lra;
          [pose proof (Rle_abs (E * (e2 - p))); lra|].
        destruct (flow_eq Y1 p1 e2 HY1) as [(A3 & B3)|[(A3 & B3 & C3)|(A3 & B3 & C3)]]; try lra.
        + rewrite B3, B2, B. pose proof (Rle_abs (E * (e2 - p1))). replace (E * (e2 - p)) with (E * (e1 - p)) by lra. split; lra.
        + split; [|nra]. rewrite B2, B3, B. rewrite T. field. lra.
      - destruct Hm as [Hm|Hm]; [lra|].
        assert (T : E * (e2 - p1) + Y1 = E * (e2 - p) - E * (e1 - p)).
        { unfold Y1, p1. rewrite Rabs_left by lra. rewrite B. field. lra. }
        destruct (flow_eq Y p e2 HY) as [(A2 & B2)|[(A2 & B2 & C2)|(A2 & B2 & C2)]]; try lra;
          [pose proof (neg_le_abs (E * (e2 - p))); lra|].
        destruct (flow_eq Y1 p1 e2 HY1) as [(A3 & B3)|[(A3 & B3 & C3)|(A3 & B3 & C3)]]; try lra.
        + rewrite B3, B2, B. pose proof (neg_le_abs (E * (e2 - p1))). replace (E * (e2 - p)) with (E * (e1 - p)) by lra. split; lra.
        + split; [|nra]. rewrite B2, B3, B. rewrite T. field. lra. }
    destruct Hsum as [Hs Hp]. split; [unfold p1 at 1; lra|]. rewrite <- Hs. unfold Y1 at 1.
    assert (Rabs (flow Y p e1 + flow Y1 p1 e2) = Rabs (flow Y p e1) + Rabs (flow Y1 p1 e2)) as ->; [|ring].
    unfold Rabs. destruct (Rcase_abs (flow Y p e1)), (Rcase_abs (flow Y1 p1 e2)), (Rcase_abs (flow Y p e1 + flow Y1 p1 e2)); nra.
  Qed.

  Lemma run_state h outs : mat_run [E; K; Sy] h outs ->
    let o := last outs mat_zero in
    (m_yield o = 0 \/ Sy <= m_yield o) /\ (outs <> [] -> Rabs (E * (last h 0 - m_epl o)) <= m_yield o /\ Sy <= m_yield o).
  Proof.
    intros H. cbn zeta. destruct (mat_run_inv E K Sy HE HK HS h outs H) as [(-> & ->)|(H1 & H2 & H3 & H4 & _)].
    - split; [left; reflexivity|]. intros N. contradiction.
    - split; [auto|]. intros _. rewrite <- H4. auto.
  Qed.

  Lemma yield_stored y : Sy <= y -> yield_before Sy y = y.
  Proof. intros H. unfold yield_before. destruct (Req_EM_T y 0); lra. Qed.

  (** One more evaluation. *)
  Definition next (o : mat_state) (e : R) : mat_state :=
    let Y := yield_before Sy (m_yield o) in let d := flow Y (m_epl o) e in
    (E * (e - (m_epl o + d)), Y + K * Rabs d, m_epl o + d).

  Lemma run_snoc h e outs : mat_run [E; K; Sy] (h ++ [e]) outs ->
    exists outs', mat_run [E; K; Sy] h outs' /\ outs = outs' ++ [next (last outs' mat_zero) e].
  Proof.
    intros H. apply (mat_run_snoc_inv E K Sy) in H. destruct H as (outs' & de & s & t & y & p & -> & Hr & Hu).
    exists outs'. split; [exact Hr|]. destruct (run_state h outs' Hr) as (Hy & _).
    destruct (umat_flow _ _ _ _ _ _ _ _ Hy Hu) as (-> & -> & -> & _). reflexivity.
  Qed.

  Lemma run_last h outs : mat_run [E; K; Sy] h outs -> last outs mat_zero = fold_left next h mat_zero.
  Proof.
    revert outs. induction h as [|e h IH] using rev_ind; intros outs H.
    - apply (mat_run_length E K Sy) in H. destruct outs; [reflexivity|discriminate].
    - apply run_snoc in H. destruct H as (outs' & H & ->). rewrite last_snoc, fold_left_app, <- (IH _ H). reflexivity.
  Qed.

  (** A committed state: the stress is within the yield stress. *)
  Definition committed (o : mat_state) (e : R) : Prop := Rabs (E * (e - m_epl o)) <= m_yield o /\ Sy <= m_yield o.

  Lemma next_committed o e : (m_yield o = 0 \/ Sy <= m_yield o) -> committed (next o e) e.
  Proof.
    intros Hy. destruct (umat_pl_total E K Sy e 0 (m_yield o) (m_epl o)) as (s & t & y & p & Hu).
    destruct (umat_flow _ _ _ _ _ _ _ _ Hy Hu) as (E1 & E2 & E3 & E4 & E5). unfold committed, next, m_yield, m_epl in *. cbn [fst snd] in *. cbn zeta.
    rewrite <- E1, <- E2, <- E3. auto.
  Qed.

  Lemma next_twice o e0 e1 e2 : committed o e0 -> e0 <= e1 <= e2 \/ e2 <= e1 <= e0 -> next (next o e1) e2 = next o e2.
  Proof.
    intros (Hab & Hge) He. apply abs_between in Hab.
    destruct (flow_twice (m_yield o) (m_epl o) e1 e2) as (T1 & T2); [lra|destruct He; [left|right]; split; nra|]. cbn zeta in T1, T2.
    destruct (next_committed o e1 (or_intror Hge)) as (_ & Hge1).
    unfold next at 1. rewrite (yield_stored _ Hge1). unfold next. rewrite (yield_stored _ Hge). cbn zeta. unfold m_yield at 1 2 3 4, m_epl at 1 2 4 5. cbn [fst snd].
    unfold m_yield, m_epl in *. cbn [fst snd] in *. rewrite T1, T2. reflexivity.
  Qed.

  Lemma next_elastic o e : Sy <= m_yield o -> Rabs (E * (e - m_epl o)) <= m_yield o -> next o e = (E * (e - m_epl o), m_yield o, m_epl o).
  Proof.
    intros Hge Hab. apply abs_between in Hab. destruct (flow_eq (m_yield o) (m_epl o) e) as [(_ & B)|[(B & _)|(B & _)]]; [lra| |lra|lra].
    unfold next. rewrite (yield_stored _ Hge). cbn zeta. rewrite B, Rabs_R0, Rplus_0_r, Rmult_0_r, Rplus_0_r. reflexivity.
  Qed.

  Lemma next_idem o e : committed o e -> m_stress o = E * (e - m_epl o) -> next o e = o.
  Proof.
    intros (Hab & Hge) Hs. destruct (flow_eq (m_yield o) (m_epl o) e) as [(_ & B)|[(B & _)|(B & _)]]; [lra| | |].
    - unfold next. rewrite (yield_stored _ Hge). cbn zeta. rewrite B, Rabs_R0, Rplus_0_r, Rmult_0_r, Rplus_0_r, <- Hs. destruct o as [[? ?] ?]. reflexivity.
    - pose proof (Rle_abs (E * (e - m_epl o))). lra.
    - pose proof (neg_le_abs (E * (e - m_epl o))). lra.
  Qed.

  Lemma fold_monotone mid : forall o e0 e2, committed o e0 ->
    StronglySorted Rle (e0 :: mid ++ [e2]) \/ StronglySorted Rge (e0 :: mid ++ [e2]) ->
    fold_left next (mid ++ [e2]) o = next o e2.
  Proof.
    induction mid as [|e1 mid IH]; intros o e0 e2 Ho Hs; [reflexivity|]. cbn [app fold_left].
    rewrite (IH _ e1 e2).
    - apply (next_twice o e0); [exact Ho|]. destruct Hs as [Hs|Hs]; [left|right]; apply StronglySorted_inv in Hs; destruct Hs as [H1 H2];
        cbn [app] in *; apply StronglySorted_inv in H1; destruct H1 as [_ H1]; rewrite Forall_forall in H1, H2.
      + split; [apply H2; left; reflexivity|]. apply H1. apply in_app_iff. right. left. reflexivity.
      + split; [apply Rge_le, H1, in_app_iff; right; left; reflexivity|]. apply Rge_le, H2. left. reflexivity.
    - apply next_committed. right. apply Ho.
    - destruct Hs as [Hs|Hs]; [left|right]; apply StronglySorted_inv in Hs; apply Hs.
  Qed.

  Lemma run_committed h e outs : mat_run [E; K; Sy] (h ++ [e]) outs -> committed (last outs mat_zero) e.
  Proof.
    intros H. apply run_snoc in H. destruct H as (outs' & H & ->). rewrite last_snoc. apply next_committed. apply (run_state _ _ H).
  Qed.

  Lemma substeps h e0 mid e2 outs outs' :
    StronglySorted Rle (e0 :: mid ++ [e2]) \/ StronglySorted Rge (e0 :: mid ++ [e2]) ->
    mat_run [E; K; Sy] (h ++ e0 :: mid ++ [e2]) outs -> mat_run [E; K; Sy] (h ++ [e0; e2]) outs' ->
    last outs mat_zero = last outs' mat_zero.
  Proof.
    intros Hs H H'. rewrite (run_last _ _ H), (run_last _ _ H'), !fold_left_app. cbn [fold_left].
    apply (fold_monotone mid _ e0 e2); [|exact Hs]. destruct (mat_run_total E K Sy (h ++ [e0])) as (o & Ho). pose proof (run_committed _ _ _ Ho) as Hc.
    rewrite (run_last _ _ Ho), fold_left_app in Hc. exact Hc.
  Qed.

  (** Histories from any state. *)
  Fixpoint states (o : mat_state) (h : list R) : list mat_state :=
    match h with [] => [] | e :: h => next o e :: states (next o e) h end.

  Lemma states_snoc h : forall o e, states o (h ++ [e]) = states o h ++ [next (last (states o h) o) e].
  Proof.
    induction h as [|x h IH]; intros o e; [reflexivity|]. cbn [app states]. rewrite IH. rewrite last_cons_last. reflexivity.
  Qed.

  Lemma run_states h outs : mat_run [E; K; Sy] h outs -> outs = states mat_zero h.
  Proof.
    revert outs. induction h as [|e h IH] using rev_ind; intros outs H.
    - apply (mat_run_length E K Sy) in H. destruct outs; [reflexivity|discriminate].
    - apply run_snoc in H. destruct H as (outs' & H & ->). rewrite states_snoc, <- (IH _ H). reflexivity.
  Qed.

  (** Stress times plastic movement. *)
  Lemma next_work o e : (m_yield o = 0 \/ Sy <= m_yield o) ->
    m_stress (next o e) * (m_epl (next o e) - m_epl o) = m_yield (next o e) * Rabs (m_epl (next o e) - m_epl o) /\ 
    Sy <= m_yield (next o e) /\ (m_yield o <= m_yield (next o e)) /\ m_stress (next o e) = E * (e - m_epl (next o e)).
  Proof.
    intros Hy. pose proof (yield_before_pos Sy _ Hy) as HY. destruct (next_committed o e Hy) as (_ & Hge).
    split; [|split; [exact Hge|split; [|reflexivity]]].
    - unfold next, m_stress, m_yield, m_epl in *. cbn [fst snd] in *. cbn zeta. set (Y := yield_before Sy (snd (fst o))) in *. set (p := snd o).
      replace (p + flow Y p e - p) with (flow Y p e) by ring.
      destruct (flow_eq Y p e ltac:(lra)) as [(_ & B)|[(A & B & C)|(A & B & C)]].
      + rewrite B, Rabs_R0. ring.
      + rewrite (Rabs_right (flow Y p e)) by lra. f_equal. rewrite B. field. lra.
      + rewrite (Rabs_left (flow Y p e)) by lra. rewrite B. field. lra.
    - unfold next, m_yield at 2. cbn [fst snd]. cbn zeta. pose proof (Rabs_pos (flow (yield_before Sy (m_yield o)) (m_epl o) e)).
      assert (m_yield o <= yield_before Sy (m_yield o)) by (unfold yield_before; destruct (Req_EM_T (m_yield o) 0); lra). nra.
  Qed.

  Lemma work_states h : forall o, (m_yield o = 0 \/ Sy <= m_yield o) ->
    Sy * accumulated (m_epl o) (states o h) <= plastic_work (m_epl o) (states o h).
  Proof.
    induction h as [|e h IH]; intros o Hy; cbn [states accumulated plastic_work]; [lra|].
    destruct (next_work o e Hy) as (H1 & H2 & _). specialize (IH (next o e) (or_intror H2)). rewrite H1.
    pose proof (Rabs_pos (m_epl (next o e) - m_epl o)). nra.
  Qed.

  Lemma strain_states h : forall o e0, (m_yield o = 0 \/ Sy <= m_yield o) -> m_stress o = E * (e0 - m_epl o) -> Rabs (m_stress o) <= m_yield o ->
    m_stress (last (states o h) o) ^ 2 / (2 * E) - m_stress o ^ 2 / (2 * E) <= strain_work e0 (m_stress o) h (states o h).
  Proof.
    induction h as [|e h IH]; intros o e0 Hy Hs Hab; cbn [states strain_work]; [cbn; lra|].
    destruct (next_work o e Hy) as (H1 & H2 & H3 & H4). destruct (next_committed o e Hy) as (H5 & _). rewrite <- H4 in H5.
    specialize (IH (next o e) e (or_intror H2) H4 H5).
    assert (El : last (next o e :: states (next o e) h) o = last (states (next o e) h) (next o e)).
    { apply last_cons_last. }
    rewrite El. set (o' := next o e) in *. set (Z := strain_work e _ h _) in *. clearbody Z.
    set (L := m_stress (last _ _)) in *. clearbody L.
    assert (Hw : m_stress o' ^ 2 / (2 * E) - m_stress o ^ 2 / (2 * E) <= (m_stress o + m_stress o') / 2 * (e - e0)); [|lra].
    set (dp := m_epl o' - m_epl o) in *.
    assert (He : e - e0 = (m_stress o' - m_stress o) / E + dp) by (unfold dp; rewrite H4, Hs; field; lra).
    rewrite He.
    assert (Hd : 0 <= (m_stress o + m_stress o') * dp).
    { apply abs_between in Hab. pose proof (Rle_abs dp). pose proof (neg_le_abs dp). rewrite Rmult_plus_distr_r, H1.
      assert (- (m_yield o' * Rabs dp) <= m_stress o * dp); [|lra].
      destruct (Rle_dec 0 dp); [rewrite (Rabs_right dp) by lra; nra|rewrite (Rabs_left dp) by lra; nra]. }
    replace ((m_stress o + m_stress o') / 2 * ((m_stress o' - m_stress o) / E + dp)) with
      (m_stress o' ^ 2 / (2 * E) - m_stress o ^ 2 / (2 * E) + (m_stress o + m_stress o') * dp / 2) by (field; lra). lra.
  Qed.
End Load.
