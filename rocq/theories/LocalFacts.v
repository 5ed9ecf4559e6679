(** * Locality of the assembled forces and stiffness *)
From Coq Require Import List ZArith Bool Arith Lia.
Import ListNotations.
From Verif Require Import Num Vec Handlers Material Analysis Truss Equil ListFacts SpecMech EquilFacts EvalFacts BitFacts SpecLocal.

Lemma flat_map_nil {A B} (f : A -> list B) l : (forall x, In x l -> f x = []) -> flat_map f l = [].
Proof.
  induction l as [|x l IH]; intros H; [reflexivity|]. cbn [flat_map]. rewrite (H x (or_introl eq_refl)). apply IH.
  intros y Hy. apply H. now right.
Qed.

Lemma flat_map_keep {A B} (f : A -> list B) p l :
  (forall x, p x = false -> f x = []) -> flat_map f l = flat_map f (filter p l).
Proof.
  intros H. induction l as [|x l IH]; [reflexivity|]. cbn. destruct (p x) eqn:E; cbn; rewrite IH; auto.
  rewrite H by exact E. reflexivity.
Qed.

Lemma map_fst_filter {A B} (p : A -> bool) (l : list (A * B)) :
  map fst (filter (fun x => p (fst x)) l) = filter p (map fst l).
Proof. induction l as [|x l IH]; [reflexivity|]. cbn. destruct (p (fst x)); cbn; rewrite IH; reflexivity. Qed.

Lemma map_fst_combine {A B} (l : list A) : forall (l' : list B), length l' = length l -> map fst (combine l l') = l.
Proof. induction l as [|x l IH]; intros [|y l'] H; cbn in *; try lia; try reflexivity. rewrite IH by lia. reflexivity. Qed.

Lemma flat_map_ext2 {A B} (R : A -> A -> Prop) (f g : A -> list B) l l' :
  (forall x y, R x y -> f x = g y) -> Forall2 R l l' -> flat_map f l = flat_map g l'.
Proof. intros H. induction 1; [reflexivity|]. cbn. rewrite (H _ _ H0), IHForall2. reflexivity. Qed.

Lemma Forall2_map_inv {A B} (R : B -> B -> Prop) (f : A -> B) l : forall l',
  Forall2 R (map f l) (map f l') -> Forall2 (fun x y => R (f x) (f y)) l l'.
Proof. induction l as [|x l IH]; intros [|y l'] H; inversion H; subst; constructor; auto. Qed.

Lemma Forall2_in {A} (R : A -> A -> Prop) (P Q : A -> Prop) l l' :
  Forall2 R l l' -> (forall x, In x l -> P x) -> (forall x, In x l' -> Q x) ->
  Forall2 (fun x y => R x y /\ P x /\ Q y) l l'.
Proof.
  induction 1; intros HP HQ; constructor.
  - repeat split; [assumption|apply HP; now left|apply HQ; now left].
  - apply IHForall2; intros; [apply HP|apply HQ]; now right.
Qed.

Section Local.
  Context {F : Type} `{NF : Num F}.
  Notation bar := (member F * option (list F))%type.
  Notation mq := (member F * truss_q (F:=F))%type.

  (** ** What one bar adds *)
  Definition vterms (l : Z) (x : mq) : list (v3 F) :=
    if Z.eqb l (mb_b (fst x)) then [vscale (q_N (snd x)) (q_n (snd x))]
    else if Z.eqb l (mb_a (fst x)) then [vscale (q_N (snd x)) (vneg (q_n (snd x)))] else [].

  Definition kterms (l l' : Z) (x : mq) : list (m3 F) :=
    if Z.eqb l (mb_a (fst x)) && Z.eqb l' (mb_a (fst x)) || Z.eqb l (mb_b (fst x)) && Z.eqb l' (mb_b (fst x))
    then [truss_KTEE (snd x)]
    else if Z.eqb l (mb_a (fst x)) && Z.eqb l' (mb_b (fst x)) || Z.eqb l (mb_b (fst x)) && Z.eqb l' (mb_a (fst x))
    then [mneg (truss_KTEE (snd x))] else [].

  Section One.
    Variables (c : ctx F) (ms : list (member F)).
    Hypothesis Hok : truss_ok c ms.
    Notation pos l := (idx l (c_labels c)).

    Lemma pos_eqb l k : In l (c_labels c) -> In k (c_labels c) -> Nat.eqb (pos l) (pos k) = Z.eqb l k.
    Proof.
      intros Hl Hk. destruct (Z.eqb_spec l k) as [->|Hne]; [apply Nat.eqb_refl|].
      apply Nat.eqb_neq. intros E. apply Hne. apply idx_nth in Hl, Hk. rewrite E in Hl. congruence.
    Qed.

    Lemma nth_radd_at (r : list (v3 F)) i v p : i < length r ->
      nth p (radd r i v) vzero = if Nat.eqb p i then vadd (nth p r vzero) v else nth p r vzero.
    Proof.
      intros Hi. unfold radd. rewrite nth_set_nth. destruct (Nat.ltb_spec i (length r)); [|lia].
      rewrite andb_true_r. destruct (Nat.eqb_spec p i) as [->|]; reflexivity.
    Qed.

    Lemma fold_vterms l : In l (c_labels c) -> forall xs r,
      length r = length (c_labels c) -> (forall x, In x xs -> In (fst x) ms) ->
      nth (pos l) (fold_left (r_member c) xs r) vzero = fold_left vadd (flat_map (vterms l) xs) (nth (pos l) r vzero).
    Proof.
      intros Hl. induction xs as [|x xs IH]; intros r Lr Hin; [reflexivity|]. cbn [fold_left flat_map].
      rewrite fold_left_app, IH; [|rewrite r_member_length; exact Lr|intros; apply Hin; now right]. f_equal.
      destruct Hok as (_ & _ & _ & _ & Hm). destruct (Hm _ (Hin x (or_introl eq_refl))) as (Ha & Hb & Hne).
      pose proof (idx_lt _ _ Ha). pose proof (idx_lt _ _ Hb).
      unfold r_member, vterms. rewrite !nth_radd_at by (rewrite ?radd_length; lia). rewrite !pos_eqb by assumption.
      destruct (Z.eqb_spec l (mb_b (fst x))) as [->|]; destruct (Z.eqb_spec (mb_b (fst x)) (mb_a (fst x)));
        try congruence; try reflexivity; destruct (Z.eqb l (mb_a (fst x))); reflexivity.
    Qed.

    Lemma k_member_dims K x : In (fst x) ms -> kdims (length (c_labels c)) K -> kdims (length (c_labels c)) (k_member c K x).
    Proof.
      intros Hx HK. destruct Hok as (_ & _ & _ & _ & Hm). destruct (Hm _ Hx) as (Ha & Hb & _).
      apply idx_lt in Ha, Hb. unfold k_member. repeat (apply kdims_kadd; auto).
    Qed.

    Lemma fold_kterms l l' : In l (c_labels c) -> In l' (c_labels c) -> forall xs K,
      kdims (length (c_labels c)) K -> (forall x, In x xs -> In (fst x) ms) ->
      ent (fold_left (k_member c) xs K) (pos l) (pos l') = fold_left madd (flat_map (kterms l l') xs) (ent K (pos l) (pos l')).
    Proof.
      intros Hl Hl'. induction xs as [|x xs IH]; intros K LK Hin; [reflexivity|]. cbn [fold_left flat_map].
      assert (Hx : In (fst x) ms) by (apply Hin; now left).
      rewrite fold_left_app, IH; [|now apply k_member_dims|intros; apply Hin; now right]. f_equal.
      destruct Hok as (_ & _ & _ & _ & Hm). destruct (Hm _ Hx) as (Ha & Hb & Hne).
      pose proof (idx_lt _ _ Ha). pose proof (idx_lt _ _ Hb). unfold k_member, kterms.
      rewrite !(ent_kadd (length (c_labels c))) by (auto; repeat (apply kdims_kadd; auto)).
      rewrite !pos_eqb by assumption.
      destruct (Z.eqb_spec l (mb_a (fst x))), (Z.eqb_spec l (mb_b (fst x))), (Z.eqb_spec l' (mb_a (fst x))),
        (Z.eqb_spec l' (mb_b (fst x))); subst; try congruence; reflexivity.
    Qed.
  End One.

  (** ** Bars with their state rows and quantities *)
  Definition rows c an k (ms : list (member F)) : list (option (list F)) := map (state_row c an) (seq k (length ms)).

  Lemma quants_in c U U0 an k ms qs :
    quants c U U0 (state_row c an) k ms qs ->
    forall x, In x (combine (combine ms (rows c an k ms)) qs) -> member_q c U U0 (snd (fst x)) (fst (fst x)) = Ok (snd x).
  Proof.
    induction 1 as [|k m ms q qs Hm Hq IH]; intros x Hx; [destruct Hx|]. cbn in Hx. destruct Hx as [<-|Hx]; [exact Hm|].
    now apply IH.
  Qed.

  Lemma drop_rows (c : ctx F) an : forall ms qs k,
    combine ms qs = map (fun x : bar * truss_q (F:=F) => (fst (fst x), snd x)) (combine (combine ms (rows c an k ms)) qs).
  Proof.
    unfold rows. induction ms as [|m ms IH]; intros [|q qs] k; try reflexivity. cbn. now rewrite (IH qs (S k)).
  Qed.

  Lemma rows_length c an k ms : length (rows c an k ms) = length ms.
  Proof. unfold rows. now rewrite map_length, seq_length. Qed.

  Definition both (l l' : Z) (b : bar) : bool := ends_at l (fst b) && ends_at l' (fst b).

  Lemma kept c an ms (qs : list (truss_q (F:=F))) l l' : length qs = length ms ->
    map fst (filter (fun x => both l l' (fst x)) (combine (combine ms (rows c an 0 ms)) qs)) = bars_between c an l l' ms.
  Proof.
    intros H. rewrite (map_fst_filter (both l l')), map_fst_combine; [reflexivity|].
    rewrite combine_length, rows_length. lia.
  Qed.

  Lemma row_at (c : ctx F) {A} (arr : list A) d l : NoDup (c_labels c) -> In l (c_labels c) ->
    length arr = length (c_labels c) -> nth (idx l (c_labels c)) arr d = row_of (c_labels c) arr d l.
  Proof. intros. symmetry. now apply row_of_nth. Qed.

  Lemma member_q_same c ms c' ms' an an' b b' q q' :
    truss_ok c ms -> truss_ok c' ms' -> In (fst b) ms -> In (fst b') ms' ->
    length (a_U an) = length (c_labels c) -> length (a_U0 an) = length (c_labels c) ->
    length (a_U an') = length (c_labels c') -> length (a_U0 an') = length (c_labels c') ->
    same_bar c c' an an' b b' ->
    member_q c (a_U an) (a_U0 an) (snd b) (fst b) = Ok q ->
    member_q c' (a_U an') (a_U0 an') (snd b') (fst b') = Ok q' -> q = q'.
  Proof.
    intros (N & LX & _ & _ & Hm) (N' & LX' & _ & _ & Hm') Hb Hb' L1 L2 L1' L2'
      (E1 & E2 & E3 & E4 & E5 & E6 & (A1 & A2 & A3) & (B1 & B2 & B3)) H H'.
    destruct (Hm _ Hb) as (Ha & Hc & _). destruct (Hm' _ Hb') as (Ha' & Hc' & _). rewrite E1 in Ha'. rewrite E2 in Hc'.
    unfold member_q in H, H'. rewrite E1, E2, E3, E4, E5, E6 in H'.
    rewrite !row_at in H by assumption. rewrite !row_at in H' by assumption.
    rewrite A1, A2, A3, B1, B2, B3 in H'. congruence.
  Qed.

  (** ** Two evaluations *)
  Section Two.
    Variables (c c' : ctx F) (ms ms' : list (member F)) (an an' pre pre' : analysis F) (qs qs' : list (truss_q (F:=F))).
    Hypothesis (Hok : truss_ok c ms) (Hok' : truss_ok c' ms').
    Hypothesis (L1 : length (a_U an) = length (c_labels c)) (L2 : length (a_U0 an) = length (c_labels c)).
    Hypothesis (L1' : length (a_U an') = length (c_labels c')) (L2' : length (a_U0 an') = length (c_labels c')).
    Hypothesis Hq : quants c (a_U an) (a_U0 an) (state_row c pre) 0 ms qs.
    Hypothesis Hq' : quants c' (a_U an') (a_U0 an') (state_row c' pre') 0 ms' qs'.

    Lemma same_terms {B} (f : mq -> list B) l l' :
      (forall x, ends_at l (fst x) && ends_at l' (fst x) = false -> f x = []) ->
      (forall m m' q, mb_a m' = mb_a m -> mb_b m' = mb_b m -> f (m', q) = f (m, q)) ->
      Forall2 (same_bar c c' an an') (bars_between c pre l l' ms) (bars_between c' pre' l l' ms') ->
      flat_map f (combine ms qs) = flat_map f (combine ms' qs').
    Proof.
      intros Hf He HB. pose proof (quants_length _ _ _ _ _ _ _ Hq) as Lq. pose proof (quants_length _ _ _ _ _ _ _ Hq') as Lq'.
      rewrite (drop_rows c pre ms qs 0), (drop_rows c' pre' ms' qs' 0), !flat_map_concat_map, !map_map.
      rewrite <- !flat_map_concat_map.
      rewrite (flat_map_keep _ (fun x => both l l' (fst x)) (combine (combine ms _) qs)) by (intros; apply Hf; assumption).
      rewrite (flat_map_keep _ (fun x => both l l' (fst x)) (combine (combine ms' _) qs')) by (intros; apply Hf; assumption).
      rewrite <- (kept c pre ms qs), <- (kept c' pre' ms' qs') in HB by assumption. apply Forall2_map_inv in HB.
      eapply (flat_map_ext2 _); [|eapply (Forall2_in _
        (fun x => In (fst (fst x)) ms /\ member_q c (a_U an) (a_U0 an) (snd (fst x)) (fst (fst x)) = Ok (snd x))
        (fun x => In (fst (fst x)) ms' /\ member_q c' (a_U an') (a_U0 an') (snd (fst x)) (fst (fst x)) = Ok (snd x))); [exact HB| |]].
      - intros [b q] [b' q'] (HS & (I1 & Q1) & (I2 & Q2)). cbn [fst snd] in *.
        assert (q = q') by (eapply (member_q_same c ms c' ms' an an' b b'); eassumption). subst q'.
        destruct HS as (E1 & E2 & _). symmetry. now apply He.
      - intros [[m s] q] Hx. apply filter_In in Hx. destruct Hx as [Hx _]. split; [|eapply quants_in; [exact Hq|exact Hx]].
        apply in_combine_l in Hx. now apply in_combine_l in Hx.
      - intros [[m s] q] Hx. apply filter_In in Hx. destruct Hx as [Hx _]. split; [|eapply quants_in; [exact Hq'|exact Hx]].
        apply in_combine_l in Hx. now apply in_combine_l in Hx.
    Qed.
  End Two.

  Lemma vterms_far l x : ends_at l (fst x) && ends_at l (fst x) = false -> vterms l x = [].
  Proof.
    unfold ends_at, vterms. rewrite andb_diag. intros H. apply orb_false_iff in H. destruct H as [-> ->]. reflexivity.
  Qed.

  Lemma kterms_far l l' x : ends_at l (fst x) && ends_at l' (fst x) = false -> kterms l l' x = [].
  Proof.
    unfold ends_at, kterms. destruct (Z.eqb l (mb_a (fst x))), (Z.eqb l (mb_b (fst x))), (Z.eqb l' (mb_a (fst x))),
      (Z.eqb l' (mb_b (fst x))); cbn; try reflexivity; discriminate.
  Qed.

  Lemma apart_at l (m : member F) (qm : truss_q (F:=F)) : l <> mb_a m /\ l <> mb_b m ->
    ends_at l (fst (m, qm)) && ends_at l (fst (m, qm)) = false.
  Proof.
    intros [H1 H2]. unfold ends_at. cbn. apply Z.eqb_neq in H1, H2. now rewrite H1, H2.
  Qed.

  Lemma apart_between l l' (m : member F) (qm : truss_q (F:=F)) :
    ~ (l = mb_a m \/ l = mb_b m) \/ ~ (l' = mb_a m \/ l' = mb_b m) ->
    ends_at l (fst (m, qm)) && ends_at l' (fst (m, qm)) = false.
  Proof.
    unfold ends_at. cbn. intros [H|H]; destruct (Z.eqb_spec l (mb_a m)), (Z.eqb_spec l (mb_b m)), (Z.eqb_spec l' (mb_a m)),
      (Z.eqb_spec l' (mb_b m)); try reflexivity; tauto.
  Qed.

  Lemma vterms_label l m m' q : mb_a m' = mb_a m -> mb_b m' = mb_b m -> vterms l (m', q) = vterms l (m, q).
  Proof. intros E1 E2. unfold vterms. cbn. now rewrite E1, E2. Qed.

  Lemma kterms_label l l' m m' q : mb_a m' = mb_a m -> mb_b m' = mb_b m -> kterms l l' (m', q) = kterms l l' (m, q).
  Proof. intros E1 E2. unfold kterms. cbn. now rewrite E1, E2. Qed.

  Lemma nth_zero (r : list (v3 F)) p : nth p (map (fun _ => vzero) r) vzero = vzero.
  Proof. revert p. induction r as [|v r IH]; intros [|p]; cbn; auto. Qed.

  (** ** The evaluations of the program *)
  Lemma force_at c ms V V0 w an an' g l : truss_ok c ms -> sizes_ok c ms an -> equilibrium c V V0 w an = Ok (an', g) ->
    In l (c_labels c) -> exists qs, quants c (a_U an') (a_U0 an') (state_row c an) 0 ms qs /\
    row_of (c_labels c) (a_r an') vzero l = fold_left vadd (flat_map (vterms l) (combine ms qs)) vzero /\
    a_stretch an' = map q_lam qs /\ a_stress an' = map q_stress qs /\ a_force an' = map q_N qs.
  Proof.
    intros Hok Hsz HE Hl.
    destruct (gequilibrium_inv _ _ _ _ _ _ _ _ Hok Hsz HE) as (an1 & qs & g' & HP & Hsz1 & Hq & Ean & _ & _). cbv zeta in *.
    pose proof (gequilibrium_sizes _ _ _ _ _ _ _ _ Hok Hsz HE) as Hsz'. clear HE.
    pose proof (quants_length _ _ _ _ _ _ _ Hq) as Lq. exists qs. split; [exact Hq|]. pose proof Hok as (ND & _).
    split; [|split; [|split]].
    - rewrite row_of_nth; [|exact ND|exact Hl|apply Hsz'].
      rewrite Ean. cbn [a_r set_g]. rewrite loop_r by exact Lq.
      rewrite (fold_vterms c ms Hok l Hl); [|apply Hsz1|intros [m q] H; now apply in_combine_l in H].
      destruct (gprepare_frame _ _ _ _ _ _ _ _ HP) as (_ & _ & _ & _ & _ & _ & Z). rewrite (Z eq_refl), nth_zero. reflexivity.
    - rewrite Ean. cbn [a_stretch set_g]. apply loop_stretch; [exact Lq|apply Hsz1].
    - rewrite Ean. cbn [a_stress set_g]. apply loop_stress; [exact Lq|apply Hsz1].
    - rewrite Ean. cbn [a_force set_g]. apply loop_force; [exact Lq|apply Hsz1].
  Qed.

  Lemma block_at c ms u an an' Kr l l' : truss_ok c ms -> sizes_ok c ms an -> stiffness c u an = Ok (an', Kr) ->
    In l (c_labels c) -> In l' (c_labels c) -> exists qs, quants c (a_U an') (a_U0 an') (state_row c an) 0 ms qs /\
    block_of c (a_K an') l l' = fold_left madd (flat_map (kterms l l') (combine ms qs)) mzero.
  Proof.
    intros Hok Hsz H Hl Hl'. pose proof (gstiffness_sizes _ _ _ _ _ _ Hok Hsz H) as Hsz'.
    unfold stiffness in H. mstep H. destruct a as [[an1 u'] lam]. mstep H.
    pose proof (gprepare_sizes _ _ _ _ _ _ _ _ _ Hsz Ha) as Hsz1.
    destruct (elem_loop_inv _ _ _ _ _ _ _ _ Hok Hsz1 Ha0) as (qs & Hq & ->). mstep H. injection H as <- E. subst a.
    pose proof (loop_frame StK c u' lam false (zipk 0 ms qs) an1) as Hf. cbn zeta in Hf.
    destruct (gprepare_frame _ _ _ _ _ _ _ _ Ha) as (P1 & _).
    pose proof (quants_length _ _ _ _ _ _ _ Hq) as Lq.
    assert (EK : a_K an1 = map (map (fun _ => mzero)) (a_K an)).
    { unfold equil_prepare in Ha. mstep Ha. mstep Ha. injection Ha as <- _ _. reflexivity. }
    exists qs. split.
    - destruct Hf as (E1 & E2 & _). cbn [a_U a_U0 set_Kred]. rewrite E1, E2.
      eapply quants_ext; [|exact Hq]. intros j _. unfold state_row. now rewrite P1.
    - pose proof Hok as (ND & _). unfold block_of.
      assert (HK : a_K (set_Kred Kr (loop_an StK c u' lam false (zipk 0 ms qs) an1)) = fold_left (k_member c) (combine ms qs) (a_K an1)).
      { cbn [a_K set_Kred]. apply loop_K. exact Lq. }
      pose proof Hsz' as (_ & _ & _ & D1 & D2 & _).
      rewrite (row_of_nth (c_labels c) _ [] l ND Hl D1).
      rewrite (row_of_nth (c_labels c) _ mzero l' ND Hl'); [|apply D2; apply nth_In; rewrite D1; now apply idx_lt].
      rewrite HK. change (ent (fold_left (k_member c) (combine ms qs) (a_K an1)) (idx l (c_labels c)) (idx l' (c_labels c))
        = fold_left madd (flat_map (kterms l l') (combine ms qs)) mzero).
      rewrite (fold_kterms c ms Hok l l' Hl Hl'); [|destruct Hsz1 as (_ & _ & _ & K1 & K2 & _); split; auto|intros [m q] H; now apply in_combine_l in H].
      rewrite EK, ent_zero. reflexivity.
  Qed.

  (** ** Consequences *)
  Lemma quants_nth c U U0 row k ms qs : quants c U U0 row k ms qs -> forall i m, nth_error ms i = Some m ->
    exists q, nth_error qs i = Some q /\ member_q c U U0 (row (k + i)) m = Ok q.
  Proof.
    induction 1 as [|k m0 ms q0 qs Hm Hq IH]; intros [|i] m Hi; try discriminate; cbn in *.
    - injection Hi as ->. exists q0. rewrite Nat.add_0_r. auto.
    - destruct (IH _ _ Hi) as (q & ? & ?). exists q. rewrite Nat.add_succ_r. auto.
  Qed.
End Local.
