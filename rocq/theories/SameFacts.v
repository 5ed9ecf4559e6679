(** * Evaluations of two descriptions of the same truss *)
From Coq Require Import List ZArith Bool Arith Lia Permutation.
Import ListNotations.
From Verif Require Import Num Vec Handlers Material Analysis Truss Equil Solver Run ListFacts SpecMech EquilFacts
  SpecState FrameFacts EvalFacts SpecSame.

(** ** Picking *)
Lemma picks_map {A B} (f : A -> B) p l l' : picks p l l' -> picks p (map f l) (map f l').
Proof.
  unfold picks. induction 1 as [|i x p l' Hx H IH]; cbn [map]; constructor; auto.
  rewrite nth_error_map, Hx. reflexivity.
Qed.

Lemma picks_seq_at {A} (l l' : list A) : forall pre, picks (seq (length pre) (length l)) (pre ++ l) l' -> l' = l.
Proof.
  revert l'. induction l as [|x l IH]; intros l' pre H; cbn [length seq] in H; inversion H as [|i y p q Hy Hr]; subst; auto.
  rewrite nth_error_app2, Nat.sub_diag in Hy by lia. injection Hy as <-. f_equal.
  apply (IH q (pre ++ [x])). rewrite <- app_assoc, app_length. cbn [length app]. rewrite Nat.add_1_r. exact Hr.
Qed.

Lemma picks_seq {A} (l l' : list A) : picks (seq 0 (length l)) l l' -> l' = l.
Proof. apply (picks_seq_at l l' []). Qed.

Lemma picks_id_at {A} (l : list A) : forall pre, picks (seq (length pre) (length l)) (pre ++ l) l.
Proof.
  induction l as [|x l IH]; intros pre; cbn [length seq]; constructor.
  - rewrite nth_error_app2, Nat.sub_diag by lia. reflexivity.
  - specialize (IH (pre ++ [x])). rewrite <- app_assoc, app_length in IH. cbn [length app] in IH.
    rewrite Nat.add_1_r in IH. exact IH.
Qed.

Lemma picks_id {A} (l : list A) : picks (seq 0 (length l)) l l.
Proof. apply (picks_id_at l []). Qed.

Lemma picks_fun {A} p (l l1 l2 : list A) : picks p l l1 -> picks p l l2 -> l1 = l2.
Proof.
  intros H. revert l2. induction H as [|i x p l1 Hx H IH]; intros l2 H2; inversion H2; subst; auto.
  f_equal; [congruence|auto].
Qed.

Lemma picks_total {A} p (l : list A) : (forall i, In i p -> i < length l) -> exists l', picks p l l'.
Proof.
  induction p as [|i p IH]; intros H; [exists []; constructor|].
  destruct IH as [l' Hl']; [intros; apply H; right; auto|].
  destruct (nth_error l i) as [x|] eqn:E; [exists (x :: l'); constructor; auto|].
  apply nth_error_None in E. specialize (H i (or_introl eq_refl)). lia.
Qed.

Lemma picks_permp {A} p p' (l : list A) : Permutation p p' ->
  forall l1 l2, picks p l l1 -> picks p' l l2 -> Permutation l1 l2.
Proof.
  induction 1 as [|i p p' Hp IH|i j p|p p1 p2 H1 IH1 H2 IH2]; intros l1 l2 A1 A2.
  - inversion A1; inversion A2; subst. constructor.
  - inversion A1; inversion A2; subst. assert (y = y0) by congruence. subst. constructor. auto.
  - inversion A1 as [|? ? ? ? X1 Y1]; inversion A2 as [|? ? ? ? X2 Y2]; subst.
    inversion Y1 as [|? ? ? ? X3 Y3]; inversion Y2 as [|? ? ? ? X4 Y4]; subst.
    rewrite (picks_fun _ _ _ _ Y3 Y4). assert (y = y2) by congruence. assert (y1 = y0) by congruence. subst. constructor.
  - destruct (picks_total p1 l) as [l3 H3].
    { intros i Hi. apply Permutation_sym in H1. eapply Permutation_in in Hi; [|exact H1].
      apply In_nth_error in Hi. destruct Hi as [k Hk]. clear - A1 Hk. revert k Hk.
      induction A1 as [|j x p l1 Hx H IH]; intros [|k] Hk; cbn in Hk; try discriminate.
      - injection Hk as ->. apply nth_error_Some. congruence.
      - eapply IH; eauto. }
    transitivity l3; [eapply IH1|eapply IH2]; eauto.
Qed.

Lemma picks_perm {A} p (l l' : list A) : Permutation p (seq 0 (length l)) -> picks p l l' -> Permutation l' l.
Proof. intros Hp H. eapply picks_permp; [exact Hp|exact H|apply picks_id]. Qed.

Lemma picks_nth {A} p (l l' : list A) k i : picks p l l' -> nth_error p k = Some i -> nth_error l' k = nth_error l i.
Proof.
  intros H. revert k. induction H as [|j x p l' Hx H IH]; intros [|k] Hk; cbn in *; try discriminate; auto.
  injection Hk as ->. auto.
Qed.

Lemma picks_length {A} p (l l' : list A) : picks p l l' -> length l' = length p.
Proof. induction 1; cbn; auto. Qed.

Lemma Forall2_len {A B} (P : A -> B -> Prop) l l' : Forall2 P l l' -> length l = length l'.
Proof. induction 1; cbn; auto. Qed.

Lemma fold_commute {A B} (f : A -> B -> A) l l' :
  (forall a x y, f (f a x) y = f (f a y) x) -> Permutation l l' -> forall a, fold_left f l a = fold_left f l' a.
Proof.
  intros Hc. induction 1 as [|x l l' H IH|x y l|l l1 l2 H1 IH1 H2 IH2]; intros a; cbn [fold_left]; auto.
  - f_equal. auto.
  - rewrite IH1. apply IH2.
Qed.

Section Eval.
  Context {F : Type} `{NF : Num F}.
  Notation AN := (analysis F).
  Variables c c' : ctx F.
  Variables ms ms' : list (member F).
  Variable p : list nat.

  (** The two members have the same quantities and act alike on the arrays. *)
  Definition alike (b b' : member F) : Prop :=
    forall U U0 sv q, member_q c U U0 sv b = Ok q ->
    length U = length (c_labels c) -> length U0 = length (c_labels c) ->
    exists q', member_q c' U U0 sv b' = Ok q' /\
      q_lam q' = q_lam q /\ q_stress q' = q_stress q /\ q_N q' = q_N q /\ q_state q' = q_state q /\
      (forall r, r_member c' r (b', q') = r_member c r (b, q)) /\
      (forall K, k_member c' K (b', q') = k_member c K (b, q)).

  Definition order_free : Prop :=
    p = seq 0 (length ms) \/
    ((forall r x y, r_member c (r_member c r x) y = r_member c (r_member c r y) x) /\
     (forall K x y, k_member c (k_member c K x) y = k_member c (k_member c K y) x)).

  Hypothesis Hok : truss_ok c ms.
  Hypothesis Hok' : truss_ok c' ms'.
  Hypothesis Hn1 : c_ndof1 c' = c_ndof1 c.
  Hypothesis Hns : c_nstatev c' = c_nstatev c.
  Hypothesis Hlab : length (c_labels c') = length (c_labels c).
  Hypothesis Hbars : bars_by alike p ms ms'.
  Hypothesis Hord : order_free.

  Definition Sim (a a' : AN) : Prop := same_result p a a' /\ sizes_ok c ms a.

  Lemma bars_length : length ms' = length ms.
  Proof.
    destruct Hbars as [Hp H]. apply Permutation_length in Hp. rewrite seq_length in Hp.
    rewrite <- Hp. symmetry. eapply Forall2_len. exact H.
  Qed.

  Lemma p_length : length p = length ms.
  Proof. destruct Hbars as [Hp _]. apply Permutation_length in Hp. rewrite seq_length in Hp. exact Hp. Qed.

  Lemma sim_sizes a a' : Sim a a' -> sizes_ok c' ms' a'.
  Proof.
    intros [(E1 & E2 & E3 & E4 & E5 & E6 & E7 & E8 & E9 & E10 & E11 & E12 & E13 & E14 & E15 & E16 & E17 & E18 & P1 & P2 & P3 & P4)
            (H1 & H2 & H3 & H4 & H5 & H6 & H7 & H8 & H9 & H10 & H11 & H12)].
    unfold sizes_ok. rewrite E2, E3, E4, E6, E8, Hlab, Hn1, Hns.
    apply picks_length in P1, P2, P3. rewrite P1, P2, P3, p_length, bars_length.
    do 11 (split; [first [assumption | reflexivity]|]).
    intros H0. destruct (H12 H0) as (sv & Es & Hl). rewrite Es in P4. destruct (a_state a') as [sv'|]; [|contradiction].
    exists sv'. split; [reflexivity|]. rewrite (picks_length _ _ _ (proj2 P4)), p_length. reflexivity.
  Qed.

  Lemma sim_row a a' k i : Sim a a' -> nth_error p k = Some i -> state_row c' a' k = state_row c a i.
  Proof.
    intros [(_ & _ & _ & _ & _ & _ & _ & _ & _ & _ & _ & _ & _ & _ & _ & _ & _ & _ & _ & _ & _ & P) _] Hk.
    unfold state_row. rewrite Hns. destruct (0 <? c_nstatev c)%Z; [|reflexivity].
    destruct (a_state a) as [sv|], (a_state a') as [sv'|]; try contradiction; auto.
    eapply picks_nth; [apply P|eassumption].
  Qed.

  (** Corresponding rows of quantities. *)
  Definition pair_alike (x x' : member F * truss_q) : Prop :=
    q_lam (snd x') = q_lam (snd x) /\ q_stress (snd x') = q_stress (snd x) /\ q_N (snd x') = q_N (snd x) /\
    q_state (snd x') = q_state (snd x) /\
    (forall r, r_member c' r x' = r_member c r x) /\ (forall K, k_member c' K x' = k_member c K x).

  Lemma quants_alike U U0 row row' qs :
    length U = length (c_labels c) -> length U0 = length (c_labels c) ->
    (forall k i, nth_error p k = Some i -> row' k = row i) ->
    quants c U U0 row 0 ms qs ->
    exists qs' L, quants c' U U0 row' 0 ms' qs' /\ picks p (combine ms qs) L /\ Forall2 pair_alike L (combine ms' qs').
  Proof.
    intros HU HU0 Hrow Hq. destruct Hbars as [_ HB].
    assert (G : forall q ns', Forall2 (fun i b' => exists b, nth_error ms i = Some b /\ alike b b') q ns' ->
      forall k, (forall j i, nth_error q j = Some i -> nth_error p (k + j) = Some i) ->
      exists qs' L, quants c' U U0 row' k ns' qs' /\ picks q (combine ms qs) L /\ Forall2 pair_alike L (combine ns' qs')).
    { clear HB. induction 1 as [|i b' q ns' (b & Hb & Hal) HF IH]; intros k Hk.
      - exists [], []. repeat constructor.
      - destruct (IH (S k)) as (qs' & L & Q1 & Q2 & Q3).
        { intros j i0 Hj. rewrite Nat.add_succ_comm. apply (Hk (S j)). exact Hj. }
        destruct (quants_nth _ _ _ _ _ _ _ Hq _ _ Hb) as (q0 & Eq & Hmq). cbn [Nat.add] in Hmq.
        destruct (Hal _ _ _ _ Hmq HU HU0) as (q' & Hq' & Rest).
        exists (q' :: qs'), ((b, q0) :: L). split; [|split].
        + constructor; auto. rewrite (Hrow k i); [exact Hq'|]. specialize (Hk 0 i eq_refl). rewrite Nat.add_0_r in Hk. exact Hk.
        + constructor; auto. rewrite nth_error_combine, Hb, Eq. reflexivity.
        + cbn [combine]. constructor; auto. }
    apply (G p ms' HB 0). auto.
  Qed.

  Lemma fold_alike_r L L' r : Forall2 pair_alike L L' -> fold_left (r_member c') L' r = fold_left (r_member c) L r.
  Proof.
    intros H. revert r. induction H as [|x x' L L' (_ & _ & _ & _ & Hr & _) H IH]; intros r; cbn [fold_left]; auto.
    rewrite Hr. apply IH.
  Qed.

  Lemma fold_alike_K L L' K : Forall2 pair_alike L L' -> fold_left (k_member c') L' K = fold_left (k_member c) L K.
  Proof.
    intros H. revert K. induction H as [|x x' L L' (_ & _ & _ & _ & _ & Hr) H IH]; intros K; cbn [fold_left]; auto.
    rewrite Hr. apply IH.
  Qed.

  Lemma combine_len (qs : list (truss_q (F:=F))) : length qs = length ms -> length (combine ms qs) = length ms.
  Proof. intros H. rewrite combine_length. lia. Qed.

  Lemma fold_order_r qs L r : length qs = length ms -> picks p (combine ms qs) L ->
    fold_left (r_member c) L r = fold_left (r_member c) (combine ms qs) r.
  Proof.
    intros Hl H. destruct Hord as [E|[Hc _]].
    - rewrite E in H. rewrite <- (combine_len _ Hl) in H. apply picks_seq in H. subst L. reflexivity.
    - apply fold_commute; auto. eapply picks_perm; [|exact H]. rewrite combine_len by exact Hl. apply Hbars.
  Qed.

  Lemma fold_order_K qs L K : length qs = length ms -> picks p (combine ms qs) L ->
    fold_left (k_member c) L K = fold_left (k_member c) (combine ms qs) K.
  Proof.
    intros Hl H. destruct Hord as [E|[_ Hc]].
    - rewrite E in H. rewrite <- (combine_len _ Hl) in H. apply picks_seq in H. subst L. reflexivity.
    - apply fold_commute; auto. eapply picks_perm; [|exact H]. rewrite combine_len by exact Hl. apply Hbars.
  Qed.

  Lemma picks_of {A} (f : truss_q (F:=F) -> A) qs qs' L : length qs = length ms -> length qs' = length ms' ->
    picks p (combine ms qs) L -> Forall2 pair_alike L (combine ms' qs') ->
    (forall x x', pair_alike x x' -> f (snd x') = f (snd x)) ->
    picks p (map f qs) (map f qs').
  Proof.
    intros Hl Hl' H1 H2 Hf.
    assert (E : map f qs' = map (fun x => f (snd x)) L).
    { rewrite <- (map_combine_snd f ms' qs') by auto. clear - H2 Hf. induction H2; cbn [map]; auto.
      f_equal; [apply Hf; assumption|assumption]. }
    rewrite E, <- (map_combine_snd f ms qs) by auto. apply picks_map. exact H1.
  Qed.

  Lemma loop_written st (cc : ctx F) u lam l an : (0 < c_nstatev cc)%Z ->
    a_lpf (loop_an st cc u lam true l an) = match l with [] => a_lpf an | _ => lam end /\
    a_Vred (loop_an st cc u lam true l an) = match l with [] => a_Vred an | _ => u ++ [lam] end.
  Proof.
    intros Hz. apply Z.ltb_lt in Hz.
    split; [rewrite (loop_proj a_lpf (fun _ _ => lam)) | rewrite (loop_proj a_Vred (fun _ _ => u ++ [lam]))].
    - destruct l as [|x l]; [reflexivity|]. cbn [fold_left]. clear. induction l; cbn; auto.
    - intros x a. unfold upd_write. rewrite Hz. reflexivity.
    - destruct l as [|x l]; [reflexivity|]. cbn [fold_left]. clear. induction l; cbn; auto.
    - intros x a. unfold upd_write. rewrite Hz. reflexivity.
  Qed.

  Lemma loop_unwritten st (cc : ctx F) u lam w l an : (w && (0 <? c_nstatev cc)%Z)%bool = false ->
    a_lpf (loop_an st cc u lam w l an) = a_lpf an /\ a_Vred (loop_an st cc u lam w l an) = a_Vred an /\
    a_state (loop_an st cc u lam w l an) = a_state an.
  Proof.
    intros Hz. repeat split; apply loop_same; intros x a; unfold upd_write; rewrite Hz; unfold upd_an; destruct st; reflexivity.
  Qed.

  Lemma rows_exist (cc : ctx F) ns an U U0 qs : sizes_ok cc ns an -> (0 < c_nstatev cc)%Z ->
    quants cc U U0 (state_row cc an) 0 ns qs ->
    map q_state qs = map Some (map (fun q => match q_state q with Some r => r | None => [] end) qs).
  Proof.
    intros Hsz H0 Hq. rewrite map_map. apply map_ext_in. intros q Hin. apply In_nth_error in Hin. destruct Hin as [k Hk].
    assert (Hkl : k < length ns) by (rewrite <- (quants_length _ _ _ _ _ _ _ Hq); apply nth_error_Some; congruence).
    destruct (nth_error ns k) as [m|] eqn:Em; [|apply nth_error_None in Em; lia].
    destruct (quants_nth _ _ _ _ _ _ _ Hq _ _ Em) as (q' & Hq' & Hmq). assert (q' = q) by congruence. subst q'.
    cbn [Nat.add] in Hmq. unfold member_q in Hmq.
    pose proof (truss_quantities_state _ _ _ _ _ _ _ _ _ _ _ Hmq) as [_ Hs].
    destruct (q_state q); [reflexivity|]. exfalso. apply Hs; [|reflexivity].
    unfold state_row. destruct (Z.ltb_spec 0 (c_nstatev cc)); [|lia].
    destruct Hsz as (_ & _ & _ & _ & _ & _ & _ & _ & _ & _ & _ & Hsv). destruct (Hsv H0) as (sv & -> & Hl).
    intros E. apply nth_error_None in E. lia.
  Qed.

  Definition state_same (s s' : option (list (list F))) : Prop :=
    match s, s' with Some sv, Some sv' => length sv' = length sv /\ picks p sv sv' | None, None => True | _, _ => False end.

  (** ** The element loop *)
  Lemma loop_sim st u lam w a a' b : Sim a a' -> elem_loop c st u lam w a = Ok b ->
    exists b', elem_loop c' st u lam w a' = Ok b' /\ Sim b b'.
  Proof.
    intros HS H. pose proof HS as HS0. pose proof (sim_sizes _ _ HS) as Hsz'. destruct HS as [Hsame Hsz].
    destruct (elem_loop_inv _ _ _ _ _ _ _ _ Hok Hsz H) as (qs & Hq & ->).
    destruct Hsame as (E1 & E2 & E3 & E4 & E5 & E6 & E7 & E8 & E9 & E10 & E11 & E12 & E13 & E14 & E15 & E16 & E17 & E18 & P1 & P2 & P3 & P4).
    destruct (quants_alike _ _ _ (state_row c' a') _ (proj1 Hsz) (proj1 (proj2 Hsz))
                (fun k i Hk => sim_row _ _ k i HS0 Hk) Hq) as (qs' & L & Hq' & HL & HA).
    pose proof (quants_length _ _ _ _ _ _ _ Hq) as Hlq. pose proof (quants_length _ _ _ _ _ _ _ Hq') as Hlq'.
    exists (loop_an st c' u lam w (zipk 0 ms' qs') a'). split.
    { apply elem_loop_ok; auto. rewrite E2, E3. exact Hq'. }
    split; [|apply loop_sizes; auto; intros x Hx; eapply zipk_In; eauto].
    pose proof (loop_frame st c u lam w (zipk 0 ms qs) a) as Hf.
    pose proof (loop_frame st c' u lam w (zipk 0 ms' qs') a') as Hf'. cbn zeta in Hf, Hf'.
    destruct Hf as (F1 & F2 & F3 & F4 & F5 & F6 & F7 & F8 & F9 & F10 & F11 & F12 & F13 & F14).
    destruct Hf' as (G1 & G2 & G3 & G4 & G5 & G6 & G7 & G8 & G9 & G10 & G11 & G12 & G13 & G14).
    assert (Hlp : a_lpf (loop_an st c' u lam w (zipk 0 ms' qs') a') = a_lpf (loop_an st c u lam w (zipk 0 ms qs) a) /\
                  a_Vred (loop_an st c' u lam w (zipk 0 ms' qs') a') = a_Vred (loop_an st c u lam w (zipk 0 ms qs) a)).
    { destruct (w && (0 <? c_nstatev c)%Z) eqn:Ew.
      - apply andb_true_iff in Ew. destruct Ew as [-> Ew]. apply Z.ltb_lt in Ew.
        destruct (loop_written st c u lam (zipk 0 ms qs) a Ew) as [-> ->]. rewrite <- Hns in Ew.
        destruct (loop_written st c' u lam (zipk 0 ms' qs') a' Ew) as [-> ->].
        assert (Hz : (zipk 0 ms qs = [] <-> zipk 0 ms' qs' = [])).
        { unfold zipk. pose proof bars_length as Hbl. destruct ms as [|? ?], ms' as [|? ?]; try discriminate; [tauto|].
          destruct qs, qs'; try discriminate; cbn; split; discriminate. }
        destruct (zipk 0 ms qs), (zipk 0 ms' qs'); auto; destruct Hz as [Z1 Z2];
          [specialize (Z1 eq_refl); discriminate | specialize (Z2 eq_refl); discriminate].
      - destruct (loop_unwritten st c u lam w (zipk 0 ms qs) a Ew) as (-> & -> & _). rewrite <- Hns in Ew.
        destruct (loop_unwritten st c' u lam w (zipk 0 ms' qs') a' Ew) as (-> & -> & _). auto. }
    assert (Hst : state_same (a_state (loop_an st c u lam w (zipk 0 ms qs) a)) (a_state (loop_an st c' u lam w (zipk 0 ms' qs') a'))).
    { destruct (w && (0 <? c_nstatev c)%Z) eqn:Ew.
      - apply andb_true_iff in Ew. destruct Ew as [-> Ew]. pose proof Ew as Ez. apply Z.ltb_lt in Ew.
        pose proof Ew as Ew'. rewrite <- Hns in Ew'. destruct st.
        + pose proof (rows_exist _ _ _ _ _ _ Hsz Ew Hq) as R1.
          pose proof (rows_exist _ _ _ _ _ _ Hsz' Ew' Hq') as R2.
          assert (Hsv : exists sv, a_state a = Some sv /\ length sv = length ms) by (apply Hsz; exact Ew).
          assert (Hsv' : exists sv, a_state a' = Some sv /\ length sv = length ms') by (apply Hsz'; exact Ew').
          destruct Hsv as (sv & Es & Hsl), Hsv' as (sv' & Es' & Hsl').
          rewrite (loop_state_write c u lam ms qs a sv _ Ew Es Hsl Hlq R1).
          rewrite (loop_state_write c' u lam ms' qs' a' sv' _ Ew' Es' Hsl' Hlq' R2).
          cbn [state_same]. split; [rewrite !map_length, Hlq, Hlq'; apply bars_length|]. eapply picks_of; eauto. intros x x' (_ & _ & _ & Hx & _). rewrite Hx. reflexivity.
        + assert (HK : forall cc l an, a_state (loop_an StK cc u lam true l an) = a_state an).
          { intros cc l an. apply loop_same. intros x y. unfold upd_write.
            destruct (true && _); cbn; [|reflexivity]. destruct (a_state y); reflexivity. }
          rewrite !HK. exact P4.
      - destruct (loop_unwritten st c u lam w (zipk 0 ms qs) a Ew) as (_ & _ & ->). rewrite <- Hns in Ew.
        destruct (loop_unwritten st c' u lam w (zipk 0 ms' qs') a' Ew) as (_ & _ & ->). exact P4. }
    assert (Hr : a_r (loop_an st c' u lam w (zipk 0 ms' qs') a') = a_r (loop_an st c u lam w (zipk 0 ms qs) a) /\
                 a_K (loop_an st c' u lam w (zipk 0 ms' qs') a') = a_K (loop_an st c u lam w (zipk 0 ms qs) a)).
    { destruct st.
      - rewrite !loop_r, !loop_stage_G by auto. split; [|exact E6].
        rewrite (fold_alike_r _ _ _ HA), (fold_order_r _ _ _ Hlq HL), E4. reflexivity.
      - rewrite !loop_K by auto.
        pose proof (loop_stage_K c u lam w (zipk 0 ms qs) a) as (-> & _).
        pose proof (loop_stage_K c' u lam w (zipk 0 ms' qs') a') as (-> & _). split; [exact E4|].
        rewrite (fold_alike_K _ _ _ HA), (fold_order_K _ _ _ Hlq HL), E6. reflexivity. }
    assert (Hel : picks p (a_stretch (loop_an st c u lam w (zipk 0 ms qs) a)) (a_stretch (loop_an st c' u lam w (zipk 0 ms' qs') a')) /\
                  picks p (a_force (loop_an st c u lam w (zipk 0 ms qs) a)) (a_force (loop_an st c' u lam w (zipk 0 ms' qs') a')) /\
                  picks p (a_stress (loop_an st c u lam w (zipk 0 ms qs) a)) (a_stress (loop_an st c' u lam w (zipk 0 ms' qs') a'))).
    { destruct st.
      - rewrite !loop_stretch, !loop_force, !loop_stress by (auto; first [apply Hsz|apply Hsz']).
        repeat split; eapply picks_of; eauto; intros x x' (? & ? & ? & _); assumption.
      - pose proof (loop_stage_K c u lam w (zipk 0 ms qs) a) as (_ & -> & -> & ->).
        pose proof (loop_stage_K c' u lam w (zipk 0 ms' qs') a') as (_ & -> & -> & ->). auto. }
    destruct Hlp as [Hlp1 Hlp2], Hr as [Hr1 Hr2], Hel as (Hel1 & Hel2 & Hel3).
    unfold same_result. rewrite F1, F2, F3, F4, F5, F6, F7, F8, F9, F10, F11, F12, F13, F14.
    rewrite G1, G2, G3, G4, G5, G6, G7, G8, G9, G10, G11, G12, G13, G14.
    repeat match goal with |- _ /\ _ => split end; assumption.
  Qed.

  (** ** Evaluations *)
  Lemma prepare_sim st V V0 a a' b u lam : Sim a a' -> equil_prepare c st V V0 a = Ok (b, u, lam) ->
    exists b', equil_prepare c' st V V0 a' = Ok (b', u, lam) /\ Sim b b'.
  Proof.
    intros [Hsame Hsz] H. pose proof (gprepare_sizes _ _ _ _ _ _ _ _ _ Hsz H) as Hsz1.
    destruct Hsame as (E1 & E2 & E3 & E4 & E5 & E6 & E7 & E8 & E9 & E10 & E11 & E12 & E13 & E14 & E15 & E16 & E17 & E18 & P1 & P2 & P3 & P4).
    unfold equil_prepare in *. rewrite Hn1, E11. cbv zeta in *.
    assert (X1 : forall s, a_U (match s with StG => set_r (map (fun _ => vzero) (a_r a')) a' | StK => set_K (map (map (fun _ => mzero)) (a_K a')) a' end)
              = a_U (match s with StG => set_r (map (fun _ => vzero) (a_r a)) a | StK => set_K (map (map (fun _ => mzero)) (a_K a)) a end)) by (intros []; exact E2).
    assert (X2 : forall s, a_U0 (match s with StG => set_r (map (fun _ => vzero) (a_r a')) a' | StK => set_K (map (map (fun _ => mzero)) (a_K a')) a' end)
              = a_U0 (match s with StG => set_r (map (fun _ => vzero) (a_r a)) a | StK => set_K (map (map (fun _ => mzero)) (a_K a)) a end)) by (intros []; exact E3).
    assert (X3 : forall s, a_DOF1 (match s with StG => set_r (map (fun _ => vzero) (a_r a')) a' | StK => set_K (map (map (fun _ => mzero)) (a_K a')) a' end)
              = a_DOF1 (match s with StG => set_r (map (fun _ => vzero) (a_r a)) a | StK => set_K (map (map (fun _ => mzero)) (a_K a)) a end)) by (intros []; exact E8).
    rewrite X1, X2, X3. apply bind_ok in H. destruct H as (U & HU & H). rewrite HU. cbn [bind].
    apply bind_ok in H. destruct H as (U0 & HU0 & H). rewrite HU0. cbn [bind]. injection H as <- <- <-.
    eexists. split; [reflexivity|]. split; [|exact Hsz1].
    unfold same_result. destruct st; cbn; rewrite ?E4, ?E6; repeat match goal with |- _ /\ _ => split end; auto.
  Qed.

  Lemma equilibrium_sim V V0 w a a' b x : Sim a a' -> equilibrium c V V0 w a = Ok (b, x) ->
    exists b', equilibrium c' V V0 w a' = Ok (b', x) /\ Sim b b'.
  Proof.
    intros HS H. unfold equilibrium in *.
    apply bind_ok in H. destruct H as ([[a1 u] lam] & Hp & H).
    destruct (prepare_sim _ _ _ _ _ _ _ _ HS Hp) as (a1' & -> & S1). cbn [bind].
    apply bind_ok in H. destruct H as (a2 & Hl & H).
    destruct (loop_sim _ _ _ _ _ _ _ S1 Hl) as (a2' & -> & S2). cbn [bind].
    destruct S2 as [(E1 & E2 & E3 & E4 & E5 & E6 & E7 & E8 & E9 & E10 & E11 & E12 & E13 & E14 & E15 & E16 & E17 & E18 & P1 & P2 & P3 & P4) Hsz].
    rewrite E4, E8, E17, E18.
    apply bind_ok in H. destruct H as (s1 & -> & H). cbn [bind].
    apply bind_ok in H. destruct H as (g & -> & H). cbn [bind].
    apply bind_ok in H. destruct H as (gr & -> & H). cbn [bind]. injection H as <- <-.
    eexists. split; [reflexivity|]. split; [|exact Hsz].
    unfold same_result. cbn. repeat match goal with |- _ /\ _ => split end; auto.
  Qed.

  Lemma stiffness_sim V a a' b x : Sim a a' -> stiffness c V a = Ok (b, x) ->
    exists b', stiffness c' V a' = Ok (b', x) /\ Sim b b'.
  Proof.
    intros HS H. unfold stiffness in *.
    apply bind_ok in H. destruct H as ([[a1 u] lam] & Hp & H).
    destruct (prepare_sim _ _ _ _ _ _ _ _ HS Hp) as (a1' & -> & S1). cbn [bind].
    apply bind_ok in H. destruct H as (a2 & Hl & H).
    destruct (loop_sim _ _ _ _ _ _ _ S1 Hl) as (a2' & -> & S2). cbn [bind].
    destruct S2 as [(E1 & E2 & E3 & E4 & E5 & E6 & E7 & E8 & E9 & E10 & E11 & E12 & E13 & E14 & E15 & E16 & E17 & E18 & P1 & P2 & P3 & P4) Hsz].
    rewrite E6, E8. apply bind_ok in H. destruct H as (Kr & -> & H). cbn [bind]. injection H as <- <-.
    eexists. split; [reflexivity|]. split; [|exact Hsz].
    unfold same_result. cbn. repeat match goal with |- _ /\ _ => split end; auto.
  Qed.
End Eval.
