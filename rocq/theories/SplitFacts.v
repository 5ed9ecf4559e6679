(** * Evaluations of a truss and of the same truss with bars split lengthwise *)
From Coq Require Import List ZArith Bool Arith Lia Reals Lra Permutation.
Import ListNotations.
From Verif Require Import Num NumR Vec Handlers Material Analysis Truss Equil Solver Run ListFacts SpecMech SpecMechR
  EquilFacts MechFacts StiffFacts SpecState FrameFacts EvalFacts SpecSame SameFacts SpecSplit.
Local Open Scope R_scope.

(** ** Sums over parts *)
Section Regroup.
  Context {T : Type}.
  Variables (zero : T) (add : T -> T -> T) (scale : R -> T -> T).
  Hypothesis Hc : forall x y, add x y = add y x.
  Hypothesis Ha : forall x y z, add (add x y) z = add x (add y z).
  Hypothesis H0 : forall x, add zero x = x.
  Hypothesis Hd : forall s t x, scale (s + t) x = add (scale s x) (scale t x).
  Hypothesis Hz : forall x, scale 0 x = zero.
  Notation tsum := (fold_right add zero).

  Lemma tsum_single (phi : nat -> T) s i : forall l, NoDup l -> In i l ->
    forall f, tsum (map (fun j => scale ((if Nat.eqb i j then s else 0) + f j) (phi j)) l)
      = add (scale s (phi i)) (tsum (map (fun j => scale (f j) (phi j)) l)).
  Proof.
    induction l as [|j l IH]; intros Hn Hi f; [destruct Hi|]. inversion Hn; subst. cbn [map fold_right].
    rewrite Hd. destruct (Nat.eqb_spec i j) as [->|Hne].
    - assert (E : tsum (map (fun k => scale ((if Nat.eqb j k then s else 0) + f k) (phi k)) l) = tsum (map (fun k => scale (f k) (phi k)) l)).
      { f_equal. apply map_ext_in. intros k Hk. destruct (Nat.eqb_spec j k) as [->|]; [contradiction|]. rewrite Rplus_0_l. reflexivity. }
      rewrite E, Ha. reflexivity.
    - destruct Hi as [->|Hi]; [contradiction|]. rewrite (IH ltac:(assumption) Hi), Hz, H0.
      rewrite <- !Ha, (Hc (scale (f j) (phi j))). reflexivity.
  Qed.

  Lemma regroup n (phi : nat -> T) : forall own xs, length own = length xs -> (forall i, In i own -> (i < n)%nat) ->
    tsum (map (fun p => scale (snd p) (phi (fst p))) (combine own xs))
    = tsum (map (fun i => scale (total own xs i) (phi i)) (seq 0 n)).
  Proof.
    assert (Z : forall l, tsum (map (fun i => scale 0 (phi i)) l) = zero).
    { induction l as [|i l IH]; cbn; auto. rewrite IH, Hz. apply H0. }
    induction own as [|i own IH]; intros [|x xs] Hl Hi; try discriminate.
    - cbn. unfold total. cbn. rewrite Z. reflexivity.
    - cbn [combine map fold_right fst snd]. rewrite IH; [|cbn in Hl; lia|intros j Hj; apply Hi; right; exact Hj].
      assert (E : forall j, total (i :: own) (x :: xs) j = (if Nat.eqb i j then x else 0) + total own xs j).
      { intros j. unfold total. cbn [combine filter fst]. destruct (Nat.eqb i j); cbn [map rsum fold_right snd]; [reflexivity|].
        rewrite Rplus_0_l. reflexivity. }
      rewrite <- (tsum_single phi x i (seq 0 n) (seq_NoDup n 0)).
      + f_equal. apply map_ext. intros j. rewrite E. reflexivity.
      + apply in_seq. specialize (Hi i (or_introl eq_refl)). lia.
  Qed.
End Regroup.

Lemma item_area (b : member R) : mb_geo b <> [] -> item (mb_geo b) 0 = Ok (area b).
Proof. unfold item, area. destruct (mb_geo b); [congruence|reflexivity]. Qed.

(** The quantities of a part with cross section [A]. *)
Definition repart (A : R) (q : truss_q (F:=R)) : truss_q (F:=R) :=
  TrussQ (q_n q) (q_L q) (q_l q) (q_lam q) (q_stress q) (q_dsde q) A (q_stress q * A) (q_state q).

Lemma KTEE_part A q : truss_KTEE (repart A q) = mscale A (truss_KTEE (repart 1 q)).
Proof.
  unfold truss_KTEE, repart. cbn [q_dsde q_A q_L q_N q_l q_n q_stress].
  generalize (q_dsde q) as d, (q_L q) as L, (q_l q) as l, (q_stress q) as t, (vouter (q_n q) (q_n q)) as P. intros d L l t P.
  assert (E1 : fdiv (fmul d A) L = A * (fdiv (fmul d 1) L)) by (numR; unfold Rdiv; ring).
  assert (E2 : fdiv (t * A) l = A * (fdiv (t * 1) l)) by (numR; unfold Rdiv; ring).
  rewrite E1, E2. generalize (fdiv (fmul d 1) L) as x, (fdiv (t * 1) l) as y, (msub meye P) as Q. intros x y Q. veq.
Qed.

Lemma mscale_swap s t (M : m3 R) : mscale s (mscale t M) = mscale t (mscale s M).
Proof. veq. Qed.
Lemma mscale_plus s t (M : m3 R) : mscale (s + t) M = madd (mscale s M) (mscale t M).
Proof. veq. Qed.
Lemma mscale_zero (M : m3 R) : mscale 0 M = mzero.
Proof. veq. Qed.

Lemma repart_2 A B q : repart A (repart B q) = repart A q.
Proof. reflexivity. Qed.

Lemma part_q (c c' : ctx R) U U0 sv b b' q : c_labels c' = c_labels c -> c_coords c' = c_coords c ->
  side_by_side b b' -> member_q c U U0 sv b = Ok q ->
  q = repart (area b) q /\ member_q c' U U0 sv b' = Ok (repart (area b') q).
Proof.
  intros El Eo (Ea & Eb & Ew & Em & G1 & G2) H. unfold member_q in *. rewrite El, Eo, Ea, Eb, Ew, Em.
  unfold truss_quantities in *. cbv zeta in *. apply bind_ok in H. destruct H as ([[s d] sv'] & -> & H). cbn [bind] in *.
  rewrite (item_area _ G1) in H. rewrite (item_area _ G2). cbn [bind] in *. injection H as <-. split; reflexivity.
Qed.

Lemma side_sym b b' : side_by_side b b' -> side_by_side b' b.
Proof. intros (E1 & E2 & E3 & E4 & G1 & G2). repeat split; auto. Qed.

Section Quants.
  Context {F : Type} `{NF : Num F}.
  Lemma quants_total (c : ctx F) U U0 row : forall ms k,
    (forall i m, nth_error ms i = Some m -> exists q, member_q c U U0 (row (k + i)%nat) m = Ok q) ->
    exists qs, quants c U U0 row k ms qs.
  Proof.
    induction ms as [|m ms IH]; intros k H; [exists []; constructor|].
    destruct (H 0%nat m eq_refl) as (q & Hq). rewrite Nat.add_0_r in Hq.
    destruct (IH (S k)) as (qs & Hqs).
    { intros i x Hx. rewrite Nat.add_succ_comm. apply (H (S i)). exact Hx. }
    exists (q :: qs). constructor; auto.
  Qed.
  Lemma quants_fun (c : ctx F) U U0 row k ms qs qs2 : quants c U U0 row k ms qs -> quants c U U0 row k ms qs2 -> qs2 = qs.
  Proof.
    intros H. revert qs2. induction H as [|k m ms q qs Hq H IH]; intros qs2 H2; inversion H2; subst; auto.
    f_equal; [congruence|]. apply IH. assumption.
  Qed.
End Quants.

Section Eval.
  Variables c c' : ctx R.
  Variables ms ms' : list (member R).
  Variable own : list nat.
  Notation AN := (analysis R).
  Hypothesis Hok : truss_ok c ms.
  Hypothesis Hok' : truss_ok c' ms'.
  Hypothesis Hlab : c_labels c' = c_labels c.
  Hypothesis Hco : c_coords c' = c_coords c.
  Hypothesis Hn1 : c_ndof1 c' = c_ndof1 c.
  Hypothesis Hns : c_nstatev c' = c_nstatev c.
  Hypothesis Hsp : split_by own ms ms'.

  Lemma own_len : length ms' = length own.
  Proof. destruct Hsp as [H _]. symmetry. eapply Forall2_len; exact H. Qed.

  Lemma own_lt i : In i own -> (i < length ms)%nat.
  Proof.
    destruct Hsp as [H _]. clear - H. induction H as [|j b' own ms' (b & Hb & _) H IH]; intros [].
    - subst. apply nth_error_Some. congruence.
    - auto.
  Qed.

  (** Corresponding quantities. *)
  Definition parts (qs qs' : list (truss_q (F:=R))) : Prop :=
    length qs = length ms /\ length qs' = length ms' /\
    (forall k i b b' q, nth_error own k = Some i -> nth_error ms i = Some b -> nth_error ms' k = Some b' ->
       nth_error qs i = Some q -> nth_error qs' k = Some (repart (area b') q)) /\
    (forall i b q, nth_error ms i = Some b -> nth_error qs i = Some q -> q = repart (area b) q).

  Lemma own_nth k i : nth_error own k = Some i -> exists b b', nth_error ms i = Some b /\ nth_error ms' k = Some b' /\ side_by_side b b'.
  Proof.
    destruct Hsp as [H _]. clear - H. revert k. induction H as [|j b' own ms' (b & Hb & Hs) H IH]; intros [|k] Hk; try discriminate; cbn in *.
    - injection Hk as <-. eauto.
    - apply IH. exact Hk.
  Qed.

  Lemma own_at k b' : nth_error ms' k = Some b' -> exists i, nth_error own k = Some i.
  Proof.
    intros H. destruct (nth_error own k) as [i|] eqn:E; [eauto|]. apply nth_error_None in E. rewrite <- own_len in E.
    apply nth_error_None in E. congruence.
  Qed.

  Lemma quants_fwd U U0 row row' qs : (forall k i, nth_error own k = Some i -> row' k = row i) ->
    quants c U U0 row 0 ms qs -> exists qs', quants c' U U0 row' 0 ms' qs' /\ parts qs qs'.
  Proof.
    intros Hrow Hq.
    assert (T : forall k b', nth_error ms' k = Some b' -> exists i b q, nth_error own k = Some i /\ nth_error ms i = Some b /\
              nth_error qs i = Some q /\ side_by_side b b' /\ member_q c' U U0 (row' k) b' = Ok (repart (area b') q)).
    { intros k b' Hb'. destruct (own_at _ _ Hb') as (i & Hi). destruct (own_nth _ _ Hi) as (b & b2 & Hb & Hb2 & Hs).
      assert (b2 = b') by congruence. subst b2.
      destruct (quants_nth _ _ _ _ _ _ _ Hq _ _ Hb) as (q & Eq & Hmq). cbn [Nat.add] in Hmq.
      exists i, b, q. rewrite (Hrow _ _ Hi). pose proof (part_q c c' U U0 _ b b' q Hlab Hco Hs Hmq) as [_ G]. auto. }
    destruct (quants_total c' U U0 row' ms' 0) as (qs' & Hq').
    { intros k b' Hb'. destruct (T _ _ Hb') as (i & b & q & _ & _ & _ & _ & H). cbn [Nat.add]. eauto. }
    exists qs'. split; [exact Hq'|].
    split; [eapply quants_length; eauto|]. split; [eapply quants_length; eauto|]. split.
    - intros k i b b' q Hi Hb Hb' Hqi. destruct (T _ _ Hb') as (i2 & b2 & q2 & Hi2 & Hb2 & Hq2 & _ & Hm).
      assert (i2 = i) by congruence. subst i2. assert (q2 = q) by congruence. subst q2.
      destruct (quants_nth _ _ _ _ _ _ _ Hq' _ _ Hb') as (q' & Eq' & Hm'). cbn [Nat.add] in Hm'. congruence.
    - intros i b q Hb Hqi. destruct (quants_nth _ _ _ _ _ _ _ Hq _ _ Hb) as (q2 & Eq & Hmq). assert (q2 = q) by congruence. subst q2.
      destruct Hsp as [_ H2]. destruct (H2 _ _ Hb) as [Hin _]. apply In_nth_error in Hin. destruct Hin as (k & Hk).
      destruct (own_nth _ _ Hk) as (b2 & b' & Hb2 & _ & Hs). assert (b2 = b) by congruence. subst b2.
      apply (part_q c c' U U0 _ b b' q Hlab Hco Hs Hmq).
  Qed.

  Lemma quants_bwd U U0 row row' qs' : (forall k i, nth_error own k = Some i -> row' k = row i) ->
    quants c' U U0 row' 0 ms' qs' -> exists qs, quants c U U0 row 0 ms qs /\ parts qs qs'.
  Proof.
    intros Hrow Hq'. destruct (quants_total c U U0 row ms 0) as (qs & Hq).
    { intros i b Hb. cbn [Nat.add]. destruct Hsp as [_ H2]. destruct (H2 _ _ Hb) as [Hin _]. apply In_nth_error in Hin. destruct Hin as (k & Hk).
      destruct (own_nth _ _ Hk) as (b2 & b' & Hb2 & Hb' & Hs). assert (b2 = b) by congruence. subst b2.
      destruct (quants_nth _ _ _ _ _ _ _ Hq' _ _ Hb') as (q' & _ & Hm'). cbn [Nat.add] in Hm'. rewrite (Hrow _ _ Hk) in Hm'.
      pose proof (part_q c' c U U0 _ b' b q' (eq_sym Hlab) (eq_sym Hco) (side_sym _ _ Hs) Hm') as [_ G]. eauto. }
    exists qs. split; [exact Hq|]. destruct (quants_fwd _ _ _ _ _ Hrow Hq) as (qs2 & Hq2 & Hp).
    assert (qs2 = qs') by (eapply quants_fun; eauto). subst. exact Hp.
  Qed.

  (** ** Internal forces and stiffness *)
  Lemma labels_nth_eq {A} (d : A) l l' : length l = length (c_labels c) -> length l' = length (c_labels c) ->
    (forall x, In x (c_labels c) -> nth (idx x (c_labels c)) l d = nth (idx x (c_labels c)) l' d) -> l = l'.
  Proof.
    intros L1 L2 H. apply (nth_ext _ _ d d); [congruence|]. intros i Hi.
    destruct (nth_error (c_labels c) i) as [x|] eqn:E; [|apply nth_error_None in E; lia].
    assert (Hx : idx x (c_labels c) = i) by (apply idx_of_nth; [apply Hok|exact E]).
    rewrite <- Hx. apply H. eapply nth_error_In; eauto.
  Qed.

  Lemma direction_side U b b' : side_by_side b b' -> direction c' U b' = direction c U b.
  Proof. intros (Ea & Eb & _). unfold direction, axis, place. rewrite Hlab, Hco, Ea, Eb. reflexivity. Qed.

  Lemma pull_lin U l b N : pull c U l (b, N) = vscale N (pull c U l (b, 1)).
  Proof. unfold pull. cbn [fst snd]. destruct (Z.eqb l (mb_b b)); [|destruct (Z.eqb l (mb_a b))]; veq. Qed.

  Lemma pull_side U l b b' N : side_by_side b b' -> pull c' U l (b', N) = pull c U l (b, N).
  Proof. intros Hs. pose proof Hs as (Ea & Eb & _). unfold pull. cbn [fst snd]. rewrite (direction_side _ _ _ Hs), Ea, Eb. reflexivity. Qed.

  (** Sums over the parts and over the bars. *)
  Lemma sum_parts {T} (zero : T) (add : T -> T -> T) (scale : R -> T -> T)
      (f : ctx R -> member R * truss_q -> T) (psi : nat -> T) qs qs' :
    (forall x y, add x y = add y x) -> (forall x y z, add (add x y) z = add x (add y z)) ->
    (forall x, add zero x = x) -> (forall s t x, scale (s + t) x = add (scale s x) (scale t x)) ->
    (forall x, scale 0 x = zero) -> parts qs qs' ->
    (forall i b q, nth_error ms i = Some b -> nth_error qs i = Some q -> f c (b, q) = scale (area b) (psi i)) ->
    (forall k i b b' q, nth_error own k = Some i -> nth_error ms i = Some b -> nth_error ms' k = Some b' -> nth_error qs i = Some q ->
       f c' (b', repart (area b') q) = scale (area b') (psi i)) ->
    fold_right add zero (map (f c') (combine ms' qs')) = fold_right add zero (map (f c) (combine ms qs)).
  Proof.
    intros A1 A2 A3 A4 A5 (L1 & L2 & P1 & P2) Hf Hf'.
    assert (E1 : map (f c') (combine ms' qs') = map (fun p => scale (snd p) (psi (fst p))) (combine own (map area ms'))).
    { apply nth_error_ext. intros k. rewrite !nth_error_map, !nth_error_combine, nth_error_map.
      destruct (nth_error ms' k) as [b'|] eqn:Eb'.
      - destruct (own_at _ _ Eb') as (i & Hi). rewrite Hi. destruct (own_nth _ _ Hi) as (b & b2 & Hb & Hb2 & Hs).
        destruct (nth_error qs i) as [q|] eqn:Eq.
        + rewrite (P1 _ _ _ _ _ Hi Hb Eb' Eq). cbn. f_equal. eapply Hf'; eauto.
        + apply nth_error_None in Eq. rewrite L1 in Eq. apply nth_error_None in Eq. congruence.
      - cbn. destruct (nth_error own k); reflexivity. }
    assert (E2 : map (f c) (combine ms qs) = map (fun i => scale (total own (map area ms') i) (psi i)) (seq 0 (length ms))).
    { apply nth_error_ext. intros i. rewrite !nth_error_map, !nth_error_combine.
      destruct (nth_error ms i) as [b|] eqn:Eb.
      - assert (Hi : (i < length ms)%nat) by (apply nth_error_Some; congruence).
        rewrite (nth_nth_error (seq 0 (length ms)) i 0%nat) by (rewrite seq_length; exact Hi).
        rewrite seq_nth by exact Hi. cbn [Nat.add option_map].
        destruct (nth_error qs i) as [q|] eqn:Eq.
        + cbn. f_equal. rewrite (Hf _ _ _ Eb Eq). destruct Hsp as [_ H2]. rewrite <- (proj2 (H2 _ _ Eb)). reflexivity.
        + apply nth_error_None in Eq. lia.
      - assert (E : nth_error (seq 0 (length ms)) i = None).
        { apply nth_error_None. rewrite seq_length. apply nth_error_None. exact Eb. }
        rewrite E. reflexivity. }
    rewrite E1, E2. apply regroup; auto; [rewrite map_length; symmetry; apply own_len|]. intros i. apply own_lt.
  Qed.

  Lemma parts_r U U0 row row' qs qs' r : length U = length (c_labels c) -> length r = length (c_labels c) ->
    quants c U U0 row 0 ms qs -> quants c' U U0 row' 0 ms' qs' -> parts qs qs' ->
    fold_left (r_member c') (combine ms' qs') r = fold_left (r_member c) (combine ms qs) r.
  Proof.
    intros HU Hr Hq Hq' HP.
    apply (labels_nth_eq vzero); rewrite ?r_fold_length; auto. intros l Hl.
    rewrite (r_fold_nth c ms U l Hok Hl (combine ms qs) r); [|eapply quants_In; eauto|exact Hr].
    rewrite <- Hlab. rewrite (r_fold_nth c' ms' U l Hok'); [|rewrite Hlab; exact Hl| |rewrite Hlab; exact Hr].
    2:{ eapply quants_In; eauto. rewrite Hlab. exact HU. }
    rewrite Hlab. f_equal.
    apply (sum_parts vzero vadd vscale (fun c mq => pull c U l (fst mq, q_N (snd mq)))
             (fun i => match nth_error ms i, nth_error qs i with Some b, Some q => vscale (q_stress q) (pull c U l (b, 1)) | _, _ => vzero end) qs qs');
      auto; try (intros; veq; fail).
    - intros i b q Hb Hqi. cbn [fst snd]. rewrite Hb, Hqi. destruct HP as (_ & _ & _ & P2). rewrite (P2 _ _ _ Hb Hqi) at 1. cbn.
      rewrite pull_lin. veq.
    - intros k i b b' q Hk Hb Hb' Hqi. cbn [fst snd]. rewrite Hb, Hqi. cbn.
      destruct (own_nth _ _ Hk) as (b1 & b2 & Hb1 & Hb2 & Hs). assert (b1 = b) by congruence. assert (b2 = b') by congruence. subst.
      rewrite (pull_side _ _ _ _ _ Hs), pull_lin. veq.
  Qed.

  Lemma parts_K U U0 row row' qs qs' K : kdims (length (c_labels c)) K ->
    quants c U U0 row 0 ms qs -> quants c' U U0 row' 0 ms' qs' -> parts qs qs' ->
    fold_left (k_member c') (combine ms' qs') K = fold_left (k_member c) (combine ms qs) K.
  Proof.
    intros HK Hq Hq' HP.
    assert (I1 : forall m q, In (m, q) (combine ms qs) -> In m ms) by (intros m q H; eapply in_combine_l; eauto).
    assert (I2 : forall m q, In (m, q) (combine ms' qs') -> In m ms') by (intros m q H; eapply in_combine_l; eauto).
    assert (HK' : kdims (length (c_labels c')) K) by (rewrite Hlab; exact HK).
    pose proof (k_fold_dims c ms _ Hok K I1 HK) as D1. pose proof (k_fold_dims c' ms' _ Hok' K I2 HK') as D2. rewrite Hlab in D2.
    apply (labels_nth_eq []); [apply D2|apply D1|]. intros l Hl. pose proof (idx_lt _ _ Hl) as Hlt.
    apply (labels_nth_eq mzero); [apply (kdims_nth _ _ _ D2 Hlt)|apply (kdims_nth _ _ _ D1 Hlt)|]. intros l' Hl'.
    pose proof (k_fold_ent c ms l l' Hok Hl Hl' _ K I1 HK) as E1.
    pose proof (k_fold_ent c' ms' l l' Hok') as E2. rewrite Hlab in E2. specialize (E2 Hl Hl' _ K I2 HK).
    unfold kent in E1, E2. rewrite E1, E2. f_equal.
    apply (sum_parts mzero madd mscale (fun _ mq => mscale (sg (fst mq) l * sg (fst mq) l') (truss_KTEE (snd mq)))
             (fun i => match nth_error ms i, nth_error qs i with
                       | Some b, Some q => mscale (sg b l * sg b l') (truss_KTEE (repart 1 q)) | _, _ => mzero end) qs qs');
      auto using madd_comm, madd_assoc, madd_0_l, mscale_plus, mscale_zero.
    - intros i b q Hb Hqi. cbn [fst snd]. rewrite Hb, Hqi. destruct HP as (_ & _ & _ & P2). rewrite (P2 _ _ _ Hb Hqi).
      rewrite KTEE_part, repart_2. apply mscale_swap.
    - intros k i b b' q Hk Hb Hb' Hqi. cbn [fst snd]. rewrite Hb, Hqi.
      destruct (own_nth _ _ Hk) as (b1 & b2 & Hb1 & Hb2 & Hs). assert (b1 = b) by congruence. assert (b2 = b') by congruence. subst.
      assert (Es : forall x, sg b' x = sg b x) by (intros x; unfold sg; destruct Hs as (-> & -> & _); reflexivity). rewrite !Es.
      rewrite KTEE_part. apply mscale_swap.
  Qed.

  (** ** The element loop *)
  Definition core (a a' : AN) : Prop :=
    a_step a' = a_step a /\ a_U a' = a_U a /\ a_U0 a' = a_U0 a /\ a_r a' = a_r a /\
    a_g a' = a_g a /\ a_K a' = a_K a /\ a_DOF0 a' = a_DOF0 a /\ a_DOF1 a' = a_DOF1 a /\
    a_Ured a' = a_Ured a /\ a_Vred a' = a_Vred a /\ a_lpf a' = a_lpf a /\
    a_dVmax a' = a_dVmax a /\ a_j a' = a_j a /\ a_Kred a' = a_Kred a /\ a_Kmod a' = a_Kmod a /\
    a_f0red a' = a_f0red a /\ a_fconst a' = a_fconst a /\ a_forces a' = a_forces a /\
    picks own (a_stretch a) (a_stretch a') /\ picks own (a_stress a) (a_stress a') /\
    match a_state a, a_state a' with
    | Some sv, Some sv' => picks own sv sv'
    | None, None => True
    | _, _ => False
    end /\
    a_force a' = map2 Rmult (map area ms') (a_stress a') /\
    a_force a = map2 Rmult (map area ms) (a_stress a).

  Definition SSim (a a' : AN) : Prop := core a a' /\ sizes_ok c ms a /\ sizes_ok c' ms' a'.

  Lemma map2_nth {A B C} (f : A -> B -> C) l l2 i : nth_error (map2 f l l2) i =
    match nth_error l i, nth_error l2 i with Some x, Some y => Some (f x y) | _, _ => None end.
  Proof.
    revert l2 i. induction l as [|x l IH]; intros [|y l2] [|i]; cbn; auto.
    destruct (nth_error l i); reflexivity.
  Qed.

  Lemma picks_all {A} (l l' : list A) : length l' = length own ->
    (forall k i, nth_error own k = Some i -> nth_error l i = nth_error l' k) -> picks own l l'.
  Proof.
    clear. unfold picks. revert l'. induction own as [|i p IH]; intros [|x l'] Hl H; try discriminate; constructor.
    - rewrite (H 0%nat i eq_refl). reflexivity.
    - apply IH; [cbn in Hl; lia|]. intros k j Hk. apply (H (S k) j Hk).
  Qed.

  Lemma picks_parts {A} (f : truss_q (F:=R) -> A) qs qs' : (forall x q, f (repart x q) = f q) -> parts qs qs' ->
    picks own (map f qs) (map f qs').
  Proof.
    intros Hf (L1 & L2 & P1 & _). apply picks_all; [rewrite map_length, L2; apply own_len|].
    intros k i Hk. destruct (own_nth _ _ Hk) as (b & b' & Hb & Hb' & _). rewrite !nth_error_map.
    destruct (nth_error qs i) as [q|] eqn:Eq.
    - rewrite (P1 _ _ _ _ _ Hk Hb Hb' Eq). cbn. rewrite Hf. reflexivity.
    - apply nth_error_None in Eq. rewrite L1 in Eq. apply nth_error_None in Eq. congruence.
  Qed.

  Lemma part_at qs qs' k b' : parts qs qs' -> nth_error ms' k = Some b' -> exists q, nth_error qs' k = Some (repart (area b') q).
  Proof.
    intros (L1 & L2 & P1 & _) Hb'. destruct (own_at _ _ Hb') as (i & Hi). destruct (own_nth _ _ Hi) as (b & b2 & Hb & Hb2 & _).
    assert (b2 = b') by congruence. subst b2. destruct (nth_error qs i) as [q|] eqn:Eq; [eauto|].
    apply nth_error_None in Eq. rewrite L1 in Eq. apply nth_error_None in Eq. congruence.
  Qed.

  Lemma forces_parts qs qs' : parts qs qs' ->
    map q_N qs' = map2 Rmult (map area ms') (map q_stress qs') /\ map q_N qs = map2 Rmult (map area ms) (map q_stress qs).
  Proof.
    intros HP. split; apply nth_error_ext; intros k; rewrite map2_nth, !nth_error_map.
    - destruct (nth_error ms' k) as [b'|] eqn:Eb'.
      + destruct (part_at _ _ _ _ HP Eb') as (q & ->). cbn. f_equal. ring.
      + destruct HP as (_ & L2 & _). assert (E : nth_error qs' k = None) by (apply nth_error_None; rewrite L2; apply nth_error_None; exact Eb').
        rewrite E. reflexivity.
    - destruct HP as (L1 & _ & _ & P2). destruct (nth_error ms k) as [b|] eqn:Eb.
      + destruct (nth_error qs k) as [q|] eqn:Eq; [|reflexivity]. cbn. f_equal. rewrite (P2 _ _ _ Eb Eq). cbn. ring.
      + assert (E : nth_error qs k = None) by (apply nth_error_None; rewrite L1; apply nth_error_None; exact Eb).
        rewrite E. reflexivity.
  Qed.

  Lemma core_row a a' k i : core a a' -> nth_error own k = Some i -> state_row c' a' k = state_row c a i.
  Proof.
    intros (_ & _ & _ & _ & _ & _ & _ & _ & _ & _ & _ & _ & _ & _ & _ & _ & _ & _ & _ & _ & P & _) Hk.
    unfold state_row. rewrite Hns. destruct (0 <? c_nstatev c)%Z; [|reflexivity].
    destruct (a_state a) as [sv|], (a_state a') as [sv'|]; try contradiction; auto.
    eapply picks_nth; [apply P|eassumption].
  Qed.

  Lemma none_iff : ms = [] <-> ms' = [].
  Proof.
    destruct Hsp as [H1 H2]. split; intros E.
    - subst ms. destruct H1 as [|i b' o l (b & Hb & _) _]; [reflexivity|]. destruct i; discriminate.
    - destruct ms as [|b l]; [reflexivity|]. exfalso. destruct (H2 0%nat b eq_refl) as [Hin _].
      rewrite E in H1. inversion H1 as [Ho|]; subst. destruct Hin.
  Qed.

  Lemma loop_core st u lam w a a' qs qs' : SSim a a' ->
    quants c (a_U a) (a_U0 a) (state_row c a) 0 ms qs -> quants c' (a_U a) (a_U0 a) (state_row c' a') 0 ms' qs' -> parts qs qs' ->
    SSim (loop_an st c u lam w (zipk 0 ms qs) a) (loop_an st c' u lam w (zipk 0 ms' qs') a').
  Proof.
    intros HS Hq Hq' HP. destruct HS as (Hsame & Hsz & Hsz').
    destruct Hsame as (E1 & E2 & E3 & E4 & E5 & E6 & E7 & E8 & E9 & E10 & E11 & E12 & E13 & E14 & E15 & E16 & E17 & E18 & P1 & P3 & P4 & N1 & N2).
    pose proof (quants_length _ _ _ _ _ _ _ Hq) as Hlq. pose proof (quants_length _ _ _ _ _ _ _ Hq') as Hlq'.
    split; [|split; apply loop_sizes; auto; intros x Hx; eapply zipk_In; eauto].
    pose proof (loop_frame st c u lam w (zipk 0 ms qs) a) as Hf.
    pose proof (loop_frame st c' u lam w (zipk 0 ms' qs') a') as Hf'. cbn zeta in Hf, Hf'.
    destruct Hf as (F1 & F2 & F3 & F4 & F5 & F6 & F7 & F8 & F9 & F10 & F11 & F12 & F13 & F14).
    destruct Hf' as (G1 & G2 & G3 & G4 & G5 & G6 & G7 & G8 & G9 & G10 & G11 & G12 & G13 & G14).
    assert (Hlp : a_lpf (loop_an st c' u lam w (zipk 0 ms' qs') a') = a_lpf (loop_an st c u lam w (zipk 0 ms qs) a) /\
                  a_Vred (loop_an st c' u lam w (zipk 0 ms' qs') a') = a_Vred (loop_an st c u lam w (zipk 0 ms qs) a)).
    { destruct (w && (0 <? c_nstatev c)%Z) eqn:Ew.
      - apply andb_true_iff in Ew. destruct Ew as [-> Ew]. apply Z.ltb_lt in Ew.
        destruct (loop_written st c u lam (zipk 0 ms qs) a Ew) as [-> ->]. rewrite <- Hns in Ew.
        destruct (loop_written st c' u lam (zipk 0 ms' qs') a' Ew) as [-> ->].
        assert (Hz : (zipk 0 ms qs = [] <-> zipk 0 ms' qs' = [])).
        { pose proof none_iff as Hbl. unfold zipk. clear - Hlq Hlq' Hbl.
          destruct ms as [|? ?], ms' as [|? ?]; [tauto|destruct Hbl as [H _]; specialize (H eq_refl); discriminate|
            destruct Hbl as [_ H]; specialize (H eq_refl); discriminate|].
          destruct qs, qs'; try discriminate; cbn; split; discriminate. }
        destruct (zipk 0 ms qs), (zipk 0 ms' qs'); auto; destruct Hz as [Z1 Z2];
          [specialize (Z1 eq_refl); discriminate | specialize (Z2 eq_refl); discriminate].
      - destruct (loop_unwritten st c u lam w (zipk 0 ms qs) a Ew) as (-> & -> & _). rewrite <- Hns in Ew.
        destruct (loop_unwritten st c' u lam w (zipk 0 ms' qs') a' Ew) as (-> & -> & _). auto. }
    assert (Hst : match a_state (loop_an st c u lam w (zipk 0 ms qs) a), a_state (loop_an st c' u lam w (zipk 0 ms' qs') a') with
                  | Some sv, Some sv' => picks own sv sv' | None, None => True | _, _ => False end).
    { destruct (w && (0 <? c_nstatev c)%Z) eqn:Ew.
      - apply andb_true_iff in Ew. destruct Ew as [-> Ew]. apply Z.ltb_lt in Ew.
        pose proof Ew as Ew'. rewrite <- Hns in Ew'. destruct st.
        + pose proof (rows_exist c c eq_refl eq_refl _ _ _ _ _ _ Hsz Ew Hq) as R1.
          pose proof (rows_exist c c eq_refl eq_refl _ _ _ _ _ _ Hsz' Ew' Hq') as R2.
          assert (Hsv : exists sv, a_state a = Some sv /\ length sv = length ms) by (apply Hsz; exact Ew).
          assert (Hsv' : exists sv, a_state a' = Some sv /\ length sv = length ms') by (apply Hsz'; exact Ew').
          destruct Hsv as (sv & Es & Hsl), Hsv' as (sv' & Es' & Hsl').
          rewrite (loop_state_write c u lam ms qs a sv _ Ew Es Hsl Hlq R1).
          rewrite (loop_state_write c' u lam ms' qs' a' sv' _ Ew' Es' Hsl' Hlq' R2).
          apply picks_parts; auto.
        + assert (HK : forall cc l an, a_state (loop_an StK cc u lam true l an) = a_state an).
          { intros cc l an. apply loop_same. intros x y. unfold upd_write.
            destruct (true && _); cbn; [|reflexivity]. destruct (a_state y); reflexivity. }
          rewrite !HK. exact P4.
      - destruct (loop_unwritten st c u lam w (zipk 0 ms qs) a Ew) as (_ & _ & ->). rewrite <- Hns in Ew.
        destruct (loop_unwritten st c' u lam w (zipk 0 ms' qs') a' Ew) as (_ & _ & ->). exact P4. }
    assert (Hr : a_r (loop_an st c' u lam w (zipk 0 ms' qs') a') = a_r (loop_an st c u lam w (zipk 0 ms qs) a) /\
                 a_K (loop_an st c' u lam w (zipk 0 ms' qs') a') = a_K (loop_an st c u lam w (zipk 0 ms qs) a)).
    { destruct st.
      - rewrite !loop_r, !loop_stage_G by auto. split; [|exact E6]. rewrite E4.
        eapply parts_r; eauto; apply Hsz.
      - rewrite !loop_K by auto.
        pose proof (loop_stage_K c u lam w (zipk 0 ms qs) a) as (-> & _).
        pose proof (loop_stage_K c' u lam w (zipk 0 ms' qs') a') as (-> & _). split; [exact E4|]. rewrite E6.
        eapply parts_K; eauto. split; apply Hsz. }
    assert (Hel : picks own (a_stretch (loop_an st c u lam w (zipk 0 ms qs) a)) (a_stretch (loop_an st c' u lam w (zipk 0 ms' qs') a')) /\
                  picks own (a_stress (loop_an st c u lam w (zipk 0 ms qs) a)) (a_stress (loop_an st c' u lam w (zipk 0 ms' qs') a')) /\
                  a_force (loop_an st c' u lam w (zipk 0 ms' qs') a') = map2 Rmult (map area ms') (a_stress (loop_an st c' u lam w (zipk 0 ms' qs') a')) /\
                  a_force (loop_an st c u lam w (zipk 0 ms qs) a) = map2 Rmult (map area ms) (a_stress (loop_an st c u lam w (zipk 0 ms qs) a))).
    { destruct st.
      - rewrite !loop_stretch, !loop_force, !loop_stress by (auto; first [apply Hsz|apply Hsz']).
        split; [apply picks_parts; auto|]. split; [apply picks_parts; auto|]. apply forces_parts, HP.
      - pose proof (loop_stage_K c u lam w (zipk 0 ms qs) a) as (_ & -> & -> & ->).
        pose proof (loop_stage_K c' u lam w (zipk 0 ms' qs') a') as (_ & -> & -> & ->). auto. }
    destruct Hlp as [Hlp1 Hlp2], Hr as [Hr1 Hr2], Hel as (Hel1 & Hel2 & Hel3 & Hel4).
    unfold core. rewrite F1, F2, F3, F4, F5, F6, F7, F8, F9, F10, F11, F12, F13, F14.
    rewrite G1, G2, G3, G4, G5, G6, G7, G8, G9, G10, G11, G12, G13, G14.
    repeat match goal with |- _ /\ _ => split end; assumption.
  Qed.

  Lemma loop_fwd st u lam w a a' b : SSim a a' -> elem_loop c st u lam w a = Ok b ->
    exists b', elem_loop c' st u lam w a' = Ok b' /\ SSim b b'.
  Proof.
    intros HS H. pose proof HS as (Hc & Hsz & Hsz').
    destruct (elem_loop_inv _ _ _ _ _ _ _ _ Hok Hsz H) as (qs & Hq & ->).
    destruct (quants_fwd _ _ _ (state_row c' a') _ (fun k i Hk => core_row _ _ k i Hc Hk) Hq) as (qs' & Hq' & HP).
    pose proof (loop_core st u lam w _ _ _ _ HS Hq Hq' HP) as G.
    destruct Hc as (_ & E2 & E3 & _). rewrite <- E2, <- E3 in Hq'.
    eexists. split; [apply elem_loop_ok; [exact Hok'|exact Hsz'|exact Hq']|exact G].
  Qed.

  Lemma loop_bwd st u lam w a a' b' : SSim a a' -> elem_loop c' st u lam w a' = Ok b' ->
    exists b, elem_loop c st u lam w a = Ok b /\ SSim b b'.
  Proof.
    intros HS H. pose proof HS as (Hc & Hsz & Hsz').
    destruct (elem_loop_inv _ _ _ _ _ _ _ _ Hok' Hsz' H) as (qs' & Hq' & ->).
    pose proof Hc as (_ & E2 & E3 & _). rewrite E2, E3 in Hq'.
    destruct (quants_bwd _ _ (state_row c a) _ _ (fun k i Hk => core_row _ _ k i Hc Hk) Hq') as (qs & Hq & HP).
    pose proof (loop_core st u lam w _ _ _ _ HS Hq Hq' HP) as G.
    eexists. split; [apply elem_loop_ok; [exact Hok|exact Hsz|exact Hq]|exact G].
  Qed.

  (** ** Evaluations *)
  Lemma prepare_fwd st V V0 a a' b u lam : SSim a a' -> equil_prepare c st V V0 a = Ok (b, u, lam) ->
    exists b', equil_prepare c' st V V0 a' = Ok (b', u, lam) /\ SSim b b'.
  Proof.
    intros (Hsame & Hsz & Hsz') H. pose proof (gprepare_sizes _ _ _ _ _ _ _ _ _ Hsz H) as Hsz1.
    destruct Hsame as (E1 & E2 & E3 & E4 & E5 & E6 & E7 & E8 & E9 & E10 & E11 & E12 & E13 & E14 & E15 & E16 & E17 & E18 & P1 & P3 & P4 & N1 & N2).
    assert (G : exists b', equil_prepare c' st V V0 a' = Ok (b', u, lam) /\ core b b').
    { unfold equil_prepare in *. rewrite Hn1, E11. cbv zeta in *.
      assert (X1 : forall s, a_U (match s with StG => set_r (map (fun _ => vzero) (a_r a')) a' | StK => set_K (map (map (fun _ => mzero)) (a_K a')) a' end)
              = a_U (match s with StG => set_r (map (fun _ => vzero) (a_r a)) a | StK => set_K (map (map (fun _ => mzero)) (a_K a)) a end)) by (intros []; exact E2).
      assert (X2 : forall s, a_U0 (match s with StG => set_r (map (fun _ => vzero) (a_r a')) a' | StK => set_K (map (map (fun _ => mzero)) (a_K a')) a' end)
              = a_U0 (match s with StG => set_r (map (fun _ => vzero) (a_r a)) a | StK => set_K (map (map (fun _ => mzero)) (a_K a)) a end)) by (intros []; exact E3).
      assert (X3 : forall s, a_DOF1 (match s with StG => set_r (map (fun _ => vzero) (a_r a')) a' | StK => set_K (map (map (fun _ => mzero)) (a_K a')) a' end)
              = a_DOF1 (match s with StG => set_r (map (fun _ => vzero) (a_r a)) a | StK => set_K (map (map (fun _ => mzero)) (a_K a)) a end)) by (intros []; exact E8).
      rewrite X1, X2, X3. apply bind_ok in H. destruct H as (U & HU & H). rewrite HU. cbn [bind].
      apply bind_ok in H. destruct H as (U0 & HU0 & H). rewrite HU0. cbn [bind]. injection H as <- <- <-.
      eexists. split; [reflexivity|].
      unfold core. destruct st; cbn -[map2]; rewrite ?E4, ?E6; repeat match goal with |- _ /\ _ => split end; auto. }
    destruct G as (b' & Hb' & Hcore). exists b'. split; [exact Hb'|]. split; [exact Hcore|]. split; [exact Hsz1|].
    eapply gprepare_sizes; eassumption.
  Qed.

  Lemma prepare_bwd st V V0 a a' b' u lam : SSim a a' -> equil_prepare c' st V V0 a' = Ok (b', u, lam) ->
    exists b, equil_prepare c st V V0 a = Ok (b, u, lam) /\ SSim b b'.
  Proof.
    intros HS H. assert (G : exists y, equil_prepare c st V V0 a = Ok y).
    { destruct HS as (Hsame & _). destruct Hsame as (E1 & E2 & E3 & E4 & E5 & E6 & E7 & E8 & E9 & E10 & E11 & _).
      unfold equil_prepare in *. rewrite Hn1, E11 in H. cbv zeta in *.
      destruct st; cbn [a_U a_U0 a_DOF1 set_r set_K] in *; rewrite E2, E3, E8 in H;
        apply bind_ok in H; destruct H as (U & -> & H); cbn [bind];
        apply bind_ok in H; destruct H as (U0 & -> & _); cbn [bind]; eauto. }
    destruct G as ([[b u2] lam2] & E).
    destruct (prepare_fwd _ _ _ _ _ _ _ _ HS E) as (b2 & Hb2 & Sb). rewrite Hb2 in H. injection H as <- <- <-. eauto.
  Qed.

  Lemma equilibrium_fwd V V0 w a a' b x : SSim a a' -> equilibrium c V V0 w a = Ok (b, x) ->
    exists b', equilibrium c' V V0 w a' = Ok (b', x) /\ SSim b b'.
  Proof.
    intros HS H. unfold equilibrium in *.
    apply bind_ok in H. destruct H as ([[a1 u] lam] & Hp & H).
    destruct (prepare_fwd _ _ _ _ _ _ _ _ HS Hp) as (a1' & -> & S1). cbn [bind].
    apply bind_ok in H. destruct H as (a2 & Hl & H).
    destruct (loop_fwd _ _ _ _ _ _ _ S1 Hl) as (a2' & -> & S2). cbn [bind].
    destruct S2 as [(E1 & E2 & E3 & E4 & E5 & E6 & E7 & E8 & E9 & E10 & E11 & E12 & E13 & E14 & E15 & E16 & E17 & E18 & P1 & P3 & P4 & N1 & N2) Hsz].
    rewrite E4, E8, E17, E18.
    apply bind_ok in H. destruct H as (s1 & -> & H). cbn [bind].
    apply bind_ok in H. destruct H as (g & -> & H). cbn [bind].
    apply bind_ok in H. destruct H as (gr & -> & H). cbn [bind]. injection H as <- <-.
    eexists. split; [reflexivity|]. split; [|exact Hsz].
    unfold core. cbn -[map2]. repeat match goal with |- _ /\ _ => split end; auto.
  Qed.

  Lemma equilibrium_bwd V V0 w a a' b' x : SSim a a' -> equilibrium c' V V0 w a' = Ok (b', x) ->
    exists b, equilibrium c V V0 w a = Ok (b, x) /\ SSim b b'.
  Proof.
    intros HS H. unfold equilibrium in *.
    apply bind_ok in H. destruct H as ([[a1' u] lam] & Hp & H).
    destruct (prepare_bwd _ _ _ _ _ _ _ _ HS Hp) as (a1 & -> & S1). cbn [bind].
    apply bind_ok in H. destruct H as (a2' & Hl & H).
    destruct (loop_bwd _ _ _ _ _ _ _ S1 Hl) as (a2 & -> & S2). cbn [bind].
    destruct S2 as [(E1 & E2 & E3 & E4 & E5 & E6 & E7 & E8 & E9 & E10 & E11 & E12 & E13 & E14 & E15 & E16 & E17 & E18 & P1 & P3 & P4 & N1 & N2) Hsz].
    rewrite E4, E8, E17, E18 in H.
    apply bind_ok in H. destruct H as (s1 & -> & H). cbn [bind].
    apply bind_ok in H. destruct H as (g & -> & H). cbn [bind].
    apply bind_ok in H. destruct H as (gr & -> & H). cbn [bind]. injection H as <- <-.
    eexists. split; [reflexivity|]. split; [|exact Hsz].
    unfold core. cbn -[map2]. repeat match goal with |- _ /\ _ => split end; auto.
  Qed.

  Lemma stiffness_fwd V a a' b x : SSim a a' -> stiffness c V a = Ok (b, x) ->
    exists b', stiffness c' V a' = Ok (b', x) /\ SSim b b'.
  Proof.
    intros HS H. unfold stiffness in *.
    apply bind_ok in H. destruct H as ([[a1 u] lam] & Hp & H).
    destruct (prepare_fwd _ _ _ _ _ _ _ _ HS Hp) as (a1' & -> & S1). cbn [bind].
    apply bind_ok in H. destruct H as (a2 & Hl & H).
    destruct (loop_fwd _ _ _ _ _ _ _ S1 Hl) as (a2' & -> & S2). cbn [bind].
    destruct S2 as [(E1 & E2 & E3 & E4 & E5 & E6 & E7 & E8 & E9 & E10 & E11 & E12 & E13 & E14 & E15 & E16 & E17 & E18 & P1 & P3 & P4 & N1 & N2) Hsz].
    rewrite E6, E8. apply bind_ok in H. destruct H as (Kr & -> & H). cbn [bind]. injection H as <- <-.
    eexists. split; [reflexivity|]. split; [|exact Hsz].
    unfold core. cbn -[map2]. repeat match goal with |- _ /\ _ => split end; auto.
  Qed.

  Lemma stiffness_bwd V a a' b' x : SSim a a' -> stiffness c' V a' = Ok (b', x) ->
    exists b, stiffness c V a = Ok (b, x) /\ SSim b b'.
  Proof.
    intros HS H. unfold stiffness in *.
    apply bind_ok in H. destruct H as ([[a1' u] lam] & Hp & H).
    destruct (prepare_bwd _ _ _ _ _ _ _ _ HS Hp) as (a1 & -> & S1). cbn [bind].
    apply bind_ok in H. destruct H as (a2' & Hl & H).
    destruct (loop_bwd _ _ _ _ _ _ _ S1 Hl) as (a2 & -> & S2). cbn [bind].
    destruct S2 as [(E1 & E2 & E3 & E4 & E5 & E6 & E7 & E8 & E9 & E10 & E11 & E12 & E13 & E14 & E15 & E16 & E17 & E18 & P1 & P3 & P4 & N1 & N2) Hsz].
    rewrite E6, E8 in H. apply bind_ok in H. destruct H as (Kr & -> & H). cbn [bind]. injection H as <- <-.
    eexists. split; [reflexivity|]. split; [|exact Hsz].
    unfold core. cbn -[map2]. repeat match goal with |- _ /\ _ => split end; auto.
  Qed.

  (** The relation shown to the user. *)
  Lemma total_forces a a' i N : core a a' -> sizes_ok c ms a -> sizes_ok c' ms' a' ->
    nth_error (a_force a) i = Some N -> N = total own (a_force a') i.
  Proof.
    intros Hc Hsz Hsz' HN. destruct Hc as (_ & _ & _ & _ & _ & _ & _ & _ & _ & _ & _ & _ & _ & _ & _ & _ & _ & _ & _ & P & _ & N1 & N2).
    rewrite N2, map2_nth, nth_error_map in HN. destruct (nth_error ms i) as [b|] eqn:Eb; [|discriminate].
    cbn [option_map] in HN. destruct (nth_error (a_stress a) i) as [s|] eqn:Es; [|discriminate]. injection HN as <-.
    destruct Hsp as [H1 H2]. destruct (H2 _ _ Eb) as [_ ->]. rewrite N1.
    assert (Ho : length own = length ms') by (symmetry; apply own_len).
    unfold total, picks in *. clear - P Es Ho. revert P Ho. generalize (a_stress a') as ss. generalize ms' as l. 
    induction own as [|k o IH]; intros [|b' l] ss P Ho; try discriminate; [cbn; apply Rmult_0_l|].
    inversion P as [|? x ? ss2 Hx P2]; subst. cbn [map map2 combine filter fst]. destruct (Nat.eqb k i) eqn:Ek.
    - apply Nat.eqb_eq in Ek. subst k. rewrite Es in Hx. injection Hx as ->.
      cbn [map snd rsum fold_right]. specialize (IH l ss2 P2 ltac:(cbn in Ho; lia)).
      unfold rsum in *. cbn [fold_right]. rewrite <- IH. ring.
    - apply IH; [exact P2|cbn in Ho; lia].
  Qed.

  Lemma result_of a a' : SSim a a' -> split_result own ms' a a'.
  Proof.
    intros (Hc & Hsz & Hsz'). pose proof Hc as (E1 & E2 & E3 & E4 & E5 & E6 & E7 & E8 & E9 & E10 & E11 & E12 & E13 & E14 & E15 & E16 & E17 & E18 & P1 & P3 & P4 & N1 & N2).
    unfold split_result. repeat match goal with |- _ /\ _ => split end; auto.
    intros i N HN. eapply total_forces; eassumption.
  Qed.
End Eval.
