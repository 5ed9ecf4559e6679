(** * Facts about the array primitives of Num.v and Vec.v *)
From Coq Require Import List ZArith Bool Arith Lia Sorted.
Import ListNotations.
From Verif Require Import Num Vec.

Ltac inv H := inversion H; subst; clear H.

(** ** bind / foldM *)
Lemma bind_ok {A B} (r : res A) (k : A -> res B) b :
  bind r k = Ok b <-> exists a, r = Ok a /\ k a = Ok b.
Proof.
  destruct r; cbn; split; intros H; try discriminate; eauto.
  - destruct H as (a' & Ha & H). injection Ha as ->. exact H.
  - destruct H as (a' & Ha & H). discriminate.
  - destruct H as (a' & Ha & H). discriminate.
Qed.

(** Decompose a successful monadic computation in hypothesis [H]. *)
Ltac mstep H :=
  match type of H with
  | bind ?r ?k = Ok ?b =>
      let a := fresh "a" in let Ha := fresh "Ha" in
      apply bind_ok in H; destruct H as (a & Ha & H)
  end.

Lemma foldM_app {A S} (f : S -> A -> res S) l1 l2 s :
  foldM f (l1 ++ l2) s = bind (foldM f l1 s) (foldM f l2).
Proof.
  revert s. induction l1 as [|a l1 IH]; intros s; cbn; [reflexivity|].
  destruct (f s a); cbn; auto.
Qed.

Lemma foldM_inv {A S} (f : S -> A -> res S) (P : S -> Prop) l s s' :
  (forall s a s', In a l -> P s -> f s a = Ok s' -> P s') ->
  P s -> foldM f l s = Ok s' -> P s'.
Proof.
  revert s. induction l as [|a l IH]; cbn; intros s Hf Hs H.
  - injection H as <-. exact Hs.
  - mstep H. eapply IH; [|eapply Hf|exact H]; eauto.
Qed.

(** ** nth_error *)
Lemma nth_error_ext {A} (l1 l2 : list A) :
  (forall i, nth_error l1 i = nth_error l2 i) -> l1 = l2.
Proof.
  revert l2. induction l1 as [|a l1 IH]; intros [|b l2] H; auto.
  - specialize (H 0). discriminate.
  - specialize (H 0). discriminate.
  - assert (H0 := H 0). cbn in H0. injection H0 as ->. f_equal. apply IH.
    intros i. exact (H (S i)).
Qed.

Lemma nth_error_seq s n i : nth_error (seq s n) i = if i <? n then Some (s + i) else None.
Proof.
  revert s i. induction n as [|n IH]; intros s [|i]; cbn [seq nth_error]; auto.
  - cbn. f_equal. lia.
  - rewrite IH. change (S i <? S n) with (i <? n). destruct (i <? n); auto. f_equal. lia.
Qed.

Lemma nth_error_combine {A B} (la : list A) (lb : list B) i :
  nth_error (combine la lb) i =
  match nth_error la i, nth_error lb i with Some a, Some b => Some (a, b) | _, _ => None end.
Proof.
  revert lb i. induction la as [|a la IH]; intros [|b lb] [|i]; cbn; auto.
  destruct (nth_error la i); auto.
Qed.

Lemma nth_error_map2 {A B C} (f : A -> B -> C) la lb i :
  nth_error (map2 f la lb) i =
  match nth_error la i, nth_error lb i with Some a, Some b => Some (f a b) | _, _ => None end.
Proof.
  revert lb i. induction la as [|a la IH]; intros [|b lb] [|i]; cbn; auto.
  destruct (nth_error la i); auto.
Qed.

Lemma map2_length {A B C} (f : A -> B -> C) la lb :
  length (map2 f la lb) = Nat.min (length la) (length lb).
Proof. revert lb. induction la as [|a la IH]; intros [|b lb]; cbn; auto. Qed.

Lemma bcast2_same {A B C} (f : A -> B -> C) la lb :
  length la = length lb -> bcast2 f la lb = Ok (map2 f la lb).
Proof. intros H. unfold bcast2. rewrite H, Nat.eqb_refl. reflexivity. Qed.

Lemma bcast2_nth {A B C} (f : A -> B -> C) la lb lc :
  length la = length lb -> bcast2 f la lb = Ok lc -> lc = map2 f la lb.
Proof. intros H E. rewrite bcast2_same in E by exact H. congruence. Qed.

Lemma nth_error_repeat {A} (a : A) n i :
  nth_error (repeat a n) i = if i <? n then Some a else None.
Proof.
  revert i. induction n as [|n IH]; intros [|i]; cbn [repeat nth_error]; auto; rewrite IH; reflexivity.
Qed.

(** ** set_nth *)
Lemma set_nth_length {A} i (v : A) l : length (set_nth i v l) = length l.
Proof. revert i. induction l as [|x l IH]; intros [|i]; cbn; auto. Qed.

Lemma nth_error_set_nth {A} i j (v : A) l :
  nth_error (set_nth i v l) j = if (j =? i) && (i <? length l) then Some v else nth_error l j.
Proof.
  revert i j. induction l as [|x l IH]; intros [|i] [|j]; cbn [set_nth nth_error length]; auto.
  - rewrite andb_false_r. reflexivity.
  - rewrite IH. reflexivity.
Qed.

Lemma nth_error_set_nth_eq {A} i (v : A) l : i < length l -> nth_error (set_nth i v l) i = Some v.
Proof. intros H. rewrite nth_error_set_nth, Nat.eqb_refl. destruct (Nat.ltb_spec i (length l)); [auto|lia]. Qed.

Lemma nth_error_set_nth_neq {A} i j (v : A) l : j <> i -> nth_error (set_nth i v l) j = nth_error l j.
Proof. intros H. rewrite nth_error_set_nth. destruct (Nat.eqb_spec j i); [lia|auto]. Qed.

Lemma set_nth_twice {A} i (v w : A) l : set_nth i v (set_nth i w l) = set_nth i v l.
Proof. revert i. induction l as [|x l IH]; intros [|i]; cbn; auto. rewrite IH. auto. Qed.

(** ** gather *)
Lemma gather_nth {A} (a : list A) idx l :
  gather a idx = Ok l ->
  length l = length idx /\
  forall k i, nth_error idx k = Some i -> nth_error l k = nth_error a i /\ i < length a.
Proof.
  revert l. induction idx as [|i idx IH]; cbn; intros l H.
  - injection H as <-. split; auto. intros [|k] i; discriminate.
  - destruct (nth_error a i) eqn:E; [|discriminate]. mstep H. injection H as <-.
    destruct (IH _ Ha) as [Hl Hn]. cbn. split; [lia|].
    intros [|k] i' Hk; cbn in Hk.
    + injection Hk as <-. cbn. split; [congruence|]. apply nth_error_Some. congruence.
    + cbn. auto.
Qed.

Lemma gather_ok {A} (a : list A) idx :
  (forall i, In i idx -> i < length a) -> exists l, gather a idx = Ok l.
Proof.
  induction idx as [|i idx IH]; intros H; cbn; eauto.
  destruct (nth_error a i) eqn:E.
  - destruct IH as [l ->]; [intros; apply H; right; auto|]. cbn. eauto.
  - apply nth_error_None in E. specialize (H i (or_introl eq_refl)). lia.
Qed.

Lemma gather_In {A} (a : list A) idx l : gather a idx = Ok l -> forall i, In i idx -> i < length a.
Proof.
  intros H i Hi. apply In_nth_error in Hi. destruct Hi as [k Hk].
  destruct (gather_nth _ _ _ H) as [_ Hn]. apply (Hn _ _ Hk).
Qed.

Lemma gather_map {A} (a : list A) idx l :
  gather a idx = Ok l <-> map Some l = map (nth_error a) idx.
Proof.
  revert l. induction idx as [|i idx IH]; cbn; intros l.
  - split; intros H; [injection H as <-; auto|]. destruct l; [auto|discriminate].
  - destruct (nth_error a i) eqn:E.
    + rewrite bind_ok. split.
      * intros (l' & Hl & H). injection H as <-. cbn. f_equal. apply IH. exact Hl.
      * intros H. destruct l as [|x l]; [discriminate|]. cbn in H. injection H as -> H.
        exists l. split; [|reflexivity]. apply IH. exact H.
    + split; [discriminate|]. intros H. destruct l; [discriminate|]. cbn in H. discriminate.
Qed.

Lemma gather_fmap {A B} (f : A -> B) a idx l :
  gather a idx = Ok l -> gather (map f a) idx = Ok (map f l).
Proof.
  revert l. induction idx as [|i idx IH]; cbn; intros l H.
  - injection H as <-. reflexivity.
  - destruct (nth_error a i) eqn:E; [|discriminate]. mstep H. injection H as <-.
    rewrite nth_error_map, E. cbn. rewrite (IH _ Ha). reflexivity.
Qed.

Lemma gather_fmap_inv {A B} (f : A -> B) a idx l :
  gather (map f a) idx = Ok l -> exists l', gather a idx = Ok l' /\ l = map f l'.
Proof.
  intros H. destruct (gather_ok a idx) as [l' Hl'].
  - intros i Hi. pose proof (gather_In _ _ _ H i Hi) as Hlt. rewrite map_length in Hlt. exact Hlt.
  - exists l'. split; auto. rewrite (gather_fmap f _ _ _ Hl') in H. congruence.
Qed.

Lemma gather0_one {A} (a : list A) i x : nth_error a i = Some x -> gather0 a [i] = Ok x.
Proof. intros H. unfold gather0. cbn. rewrite H. reflexivity. Qed.

Lemma gather0_ok {A} (a : list A) idx x :
  gather0 a idx = Ok x -> exists i idx', idx = i :: idx' /\ nth_error a i = Some x.
Proof.
  unfold gather0. intros H. mstep H. destruct idx as [|i idx]; cbn in Ha.
  - injection Ha as <-. discriminate.
  - destruct (nth_error a i) eqn:E; [|discriminate]. mstep Ha. injection Ha as <-. injection H as <-. eauto.
Qed.

(** ** put *)
Lemma fold_set_nth_length {A} (v : A) idx a :
  length (fold_left (fun acc i => set_nth i v acc) idx a) = length a.
Proof. revert a. induction idx as [|i idx IH]; intros a; cbn; auto. rewrite IH, set_nth_length. auto. Qed.

Lemma put_ok {A} (a : list A) idx v a' :
  put a idx v = Ok a' ->
  length a' = length a /\ (forall i, In i idx -> i < length a) /\
  forall i, nth_error a' i = if existsb (Nat.eqb i) idx then Some v else nth_error a i.
Proof.
  unfold put. destruct (forallb _ idx) eqn:E; [|discriminate]. intros H. injection H as <-.
  rewrite forallb_forall in E.
  assert (E' : forall i, In i idx -> i < length a).
  { intros i Hi. apply Nat.ltb_lt. auto. }
  split; [apply fold_set_nth_length|]. split; [exact E'|]. clear E.
  revert a E'. induction idx as [|k idx IH]; intros a E' i; cbn; auto.
  rewrite IH.
  - destruct (existsb (Nat.eqb i) idx); [rewrite orb_true_r; auto|]. rewrite orb_false_r.
    rewrite nth_error_set_nth. destruct (Nat.eqb_spec i k); auto. cbn [andb].
    destruct (Nat.ltb_spec k (length a)); auto. specialize (E' k (or_introl eq_refl)). lia.
  - intros i' Hi'. rewrite set_nth_length. auto using in_cons.
Qed.

Lemma put_one {A} (a : list A) i v : i < length a -> put a [i] v = Ok (set_nth i v a).
Proof. intros H. unfold put. cbn [forallb fold_left]. destruct (Nat.ltb_spec i (length a)); [reflexivity|lia]. Qed.

Lemma put_nil {A} (a : list A) v : put a [] v = Ok a.
Proof. reflexivity. Qed.

(** ** where_true / positions *)
Lemma where_true_from (mask : list bool) s :
  map fst (filter snd (combine (seq s (length mask)) mask)) =
  map (fun i => s + i) (where_true mask).
Proof.
  unfold where_true. revert s. induction mask as [|b mask IH]; intros s; [reflexivity|].
  cbn [length seq combine filter snd]. pose proof (IH (S s)) as H1. pose proof (IH 1) as H2.
  destruct b; cbn [map fst]; rewrite H1, H2; generalize (map fst (filter snd (combine (seq 0 (length mask)) mask)));
    intros w; rewrite map_map.
  - f_equal; [lia|]. apply map_ext. intros; lia.
  - apply map_ext. intros; lia.
Qed.

Lemma where_true_cons b mask :
  where_true (b :: mask) = (if b then [0] else []) ++ map S (where_true mask).
Proof.
  unfold where_true. cbn. pose proof (where_true_from mask 1) as H. cbn in H.
  destruct b; cbn; rewrite H; reflexivity.
Qed.

Lemma where_true_In mask i : In i (where_true mask) <-> nth_error mask i = Some true.
Proof.
  revert i. induction mask as [|b mask IH]; intros i.
  - cbn. split; [tauto|]. destruct i; discriminate.
  - rewrite where_true_cons, in_app_iff, in_map_iff. split.
    + intros [H|(k & <- & H)].
      * destruct b; cbn in H; [|tauto]. destruct H as [<-|[]]. reflexivity.
      * cbn. apply IH. exact H.
    + destruct i as [|i]; cbn.
      * intros H. injection H as ->. left. left. reflexivity.
      * intros H. right. exists i. split; auto. apply IH. exact H.
Qed.

Lemma where_true_sorted mask : StronglySorted lt (where_true mask).
Proof.
  induction mask as [|b mask IH]; [constructor|].
  rewrite where_true_cons.
  assert (Hm : StronglySorted lt (map S (where_true mask))).
  { clear - IH. induction IH as [|a l Hl IHl Hf]; cbn; constructor; auto.
    rewrite Forall_forall in *. intros x Hx. apply in_map_iff in Hx. destruct Hx as (k & <- & Hk).
    specialize (Hf _ Hk). lia. }
  destruct b; cbn; auto. constructor; auto.
  apply Forall_forall. intros x Hx. apply in_map_iff in Hx. destruct Hx as (k & <- & _). lia.
Qed.

Lemma positions_In l labels i : In i (positions l labels) <-> nth_error labels i = Some l.
Proof.
  unfold positions. rewrite where_true_In, nth_error_map.
  destruct (nth_error labels i); cbn; split; intros H; try discriminate.
  - injection H as H. apply Z.eqb_eq in H. congruence.
  - injection H as <-. rewrite Z.eqb_refl. reflexivity.
Qed.

Lemma positions_cons l a labels :
  positions l (a :: labels) = (if Z.eqb l a then [0] else []) ++ map S (positions l labels).
Proof. unfold positions. cbn [map]. apply where_true_cons. Qed.

Lemma positions_notin l labels : ~ In l labels -> positions l labels = [].
Proof.
  intros H. destruct (positions l labels) as [|i p] eqn:E; auto.
  exfalso. apply H. assert (Hi : In i (positions l labels)) by (rewrite E; left; auto).
  apply positions_In in Hi. eapply nth_error_In; eauto.
Qed.

Lemma NoDup_nth_inj {A} (l : list A) i j x :
  NoDup l -> nth_error l i = Some x -> nth_error l j = Some x -> i = j.
Proof.
  intros Hn Hi Hj. rewrite NoDup_nth_error in Hn. apply Hn; [|congruence].
  apply nth_error_Some. congruence.
Qed.

Lemma positions_NoDup l labels i :
  NoDup labels -> nth_error labels i = Some l -> positions l labels = [i].
Proof.
  intros Hn Hi. pose proof (where_true_sorted (map (Z.eqb l) labels)) as Hs.
  fold (positions l labels) in Hs.
  assert (Hin : forall k, In k (positions l labels) -> k = i).
  { intros k Hk. apply positions_In in Hk. eapply NoDup_nth_inj; eauto. }
  assert (Hii : In i (positions l labels)) by (apply positions_In; auto).
  destruct (positions l labels) as [|a [|b p]].
  - destruct Hii.
  - rewrite (Hin a); auto. left; auto.
  - inv Hs. rewrite Forall_forall in H2. specialize (H2 b (or_introl eq_refl)).
    rewrite (Hin a), (Hin b) in H2; [lia|right; left; auto|left; auto].
Qed.

Lemma positions_lt l labels i : In i (positions l labels) -> i < length labels.
Proof. intros H. apply positions_In in H. apply nth_error_Some. congruence. Qed.

(** ** delete_at *)
Lemma delete_at_filter {A} (keep : A -> bool) (a : list A) idx :
  (forall i x, nth_error a i = Some x -> existsb (Nat.eqb i) idx = negb (keep x)) ->
  delete_at a idx = filter keep a.
Proof.
  unfold delete_at.
  assert (G : forall (a : list A) s, (forall i x, nth_error a i = Some x -> existsb (Nat.eqb (s + i)) idx = negb (keep x)) ->
     map snd (filter (fun p => negb (existsb (Nat.eqb (fst p)) idx)) (combine (seq s (length a)) a))
     = filter keep a).
  { clear a. induction a as [|x a IH]; intros s H; cbn; auto.
    pose proof (H 0 x eq_refl) as H0. rewrite Nat.add_0_r in H0. rewrite H0, negb_involutive.
    assert (IH' := IH (S s)). destruct (keep x); cbn; [f_equal|]; apply IH';
      intros i y Hi; rewrite <- (H (S i) y Hi); do 2 f_equal; lia. }
  intros H. apply (G a 0). exact H.
Qed.

Lemma delete_at_length {A} (a : list A) idx : length (delete_at a idx) <= length a.
Proof.
  unfold delete_at. rewrite map_length.
  transitivity (length (combine (seq 0 (length a)) a)).
  - generalize (combine (seq 0 (length a)) a). intros l. induction l as [|p l IH]; cbn; auto.
    destruct (negb _); cbn; lia.
  - rewrite combine_length, seq_length. lia.
Qed.

(** ** flattened 3-vectors *)
Lemma vflat_length {A} (l : list (v3 A)) : length (vflat l) = 3 * length l.
Proof. induction l as [|v l IH]; cbn [vflat flat_map]; auto. rewrite app_length. fold (vflat l). cbn [vlist length]. lia. Qed.

Lemma nth_error_vflat {A} (l : list (v3 A)) k :
  nth_error (vflat l) k = option_map (fun v => vget v (k mod 3)) (nth_error l (k / 3)).
Proof.
  revert k. induction l as [|v l IH]; intros k.
  - cbn [vflat flat_map]. rewrite !(proj2 (nth_error_None _ _)); auto; cbn; lia.
  - cbn [vflat flat_map]. fold (vflat l).
    destruct (Nat.lt_ge_cases k 3) as [Hk|Hk].
    + destruct k as [|[|[|k]]]; [reflexivity|reflexivity|reflexivity|lia].
    + rewrite nth_error_app2 by (cbn; lia). cbn [vlist length].
      rewrite IH. assert (Hdm : exists m, k = m + 1 * 3) by (exists (k - 3); lia).
      destruct Hdm as [m ->]. rewrite Nat.mod_add, Nat.div_add by lia.
      replace (m + 1 * 3 - 3) with m by lia. replace (m / 3 + 1) with (S (m / 3)) by lia. reflexivity.
Qed.

Lemma vflat_nth3 {A} (l : list (v3 A)) i c v :
  c < 3 -> nth_error l i = Some v -> nth_error (vflat l) (3 * i + c) = Some (vget v c).
Proof.
  intros Hc Hi. rewrite nth_error_vflat.
  rewrite (Nat.mul_comm 3), Nat.add_comm, Nat.div_add, Nat.mod_add by lia.
  rewrite Nat.div_small, Nat.mod_small by lia. cbn. rewrite Hi. reflexivity.
Qed.

Lemma vget_vset {A} (v : v3 A) c d x : c < 3 -> d < 3 ->
  vget (vset v c x) d = if d =? c then x else vget v d.
Proof. intros. destruct c as [|[|[|]]], d as [|[|[|]]]; try lia; reflexivity. Qed.

Lemma v3_ext {A} (v w : v3 A) : (forall c, c < 3 -> vget v c = vget w c) -> v = w.
Proof.
  intros H. destruct v, w. pose proof (H 0 ltac:(lia)). pose proof (H 1 ltac:(lia)).
  pose proof (H 2 ltac:(lia)). cbn in *. congruence.
Qed.

(** ** scatter *)
Lemma put_flat1_length {A} (a : list (v3 A)) k x : length (put_flat1 a k x) = length a.
Proof. unfold put_flat1. destruct (nth_error a (k / 3)); auto. apply set_nth_length. Qed.

Lemma put_flat1_flat {A} (a : list (v3 A)) k x :
  k < 3 * length a -> vflat (put_flat1 a k x) = set_nth k x (vflat a).
Proof.
  intros Hk. assert (Hd : k / 3 < length a) by (apply Nat.div_lt_upper_bound; lia).
  apply nth_error_ext. intros i. rewrite nth_error_set_nth, !nth_error_vflat, vflat_length.
  unfold put_flat1. destruct (nth_error a (k / 3)) as [row|] eqn:E;
    [|apply nth_error_None in E; lia].
  rewrite nth_error_set_nth. destruct (Nat.ltb_spec k (3 * length a)); [|lia].
  destruct (Nat.ltb_spec (k / 3) (length a)); [|lia]. rewrite !andb_true_r.
  pose proof (Nat.div_mod i 3 ltac:(lia)). pose proof (Nat.div_mod k 3 ltac:(lia)).
  pose proof (Nat.mod_upper_bound i 3 ltac:(lia)). pose proof (Nat.mod_upper_bound k 3 ltac:(lia)).
  destruct (Nat.eqb_spec (i / 3) (k / 3)) as [He|He].
  - cbn [option_map]. rewrite vget_vset by lia.
    destruct (Nat.eqb_spec (i mod 3) (k mod 3)); destruct (Nat.eqb_spec i k); try lia; auto.
    rewrite He, E. reflexivity.
  - destruct (Nat.eqb_spec i k); [subst; lia|]. reflexivity.
Qed.

(** Contents of the flattened array after a scatter. *)
Lemma scatter_ok {A} (a : list (v3 A)) dof vals a' :
  NoDup dof -> length vals = length dof -> scatter a dof vals = Ok a' ->
  length a' = length a /\
  (forall k, ~ In k dof -> nth_error (vflat a') k = nth_error (vflat a) k) /\
  (forall m k, nth_error dof m = Some k -> nth_error (vflat a') k = nth_error vals m).
Proof.
  intros Hn Hl. unfold scatter. destruct (forallb _ dof) eqn:E; [|discriminate].
  rewrite Hl, Nat.eqb_refl. intros H. injection H as <-.
  assert (E' : forall i, In i dof -> i < 3 * length a).
  { rewrite forallb_forall in E. intros i Hi. apply Nat.ltb_lt. auto. }
  clear E. revert a vals Hl E'. induction dof as [|k dof IH]; intros a vals Hl E'.
  - destruct vals; [|discriminate]. cbn. repeat split; auto. intros [|m] k; discriminate.
  - destruct vals as [|v vals]; [discriminate|]. cbn [combine fold_left fst snd].
    inv Hn. cbn in Hl.
    destruct (IH H2 (put_flat1 a k v) vals ltac:(lia)) as (IH1 & IH2 & IH3).
    { intros i Hi. rewrite put_flat1_length. apply E'. right. auto. }
    rewrite put_flat1_length in IH1. split; [exact IH1|].
    assert (Hk : k < 3 * length a) by (apply E'; left; auto). split.
    + intros i Hi. rewrite IH2 by (intros Hx; apply Hi; right; exact Hx).
      rewrite put_flat1_flat by exact Hk. apply nth_error_set_nth_neq. intros ->. apply Hi. left; auto.
    + intros [|m] i Hm; cbn in Hm.
      * injection Hm as <-. rewrite IH2 by exact H1. rewrite put_flat1_flat by exact Hk.
        rewrite nth_error_set_nth_eq; [reflexivity|]. rewrite vflat_length. exact Hk.
      * cbn. apply IH3. exact Hm.
Qed.

Lemma scatter_length {A} (a : list (v3 A)) dof vals a' :
  scatter a dof vals = Ok a' -> length a' = length a.
Proof.
  unfold scatter. destruct (forallb _ dof); [|discriminate].
  assert (G : forall l (a : list (v3 A)),
    length (fold_left (fun acc p => put_flat1 acc (fst p) (snd p)) l a) = length a).
  { intros l. induction l as [|p l IH]; intros b; cbn; auto. rewrite IH. apply put_flat1_length. }
  assert (G' : forall x l (a : list (v3 A)),
    length (fold_left (fun acc k => put_flat1 acc k x) l a) = length a).
  { intros x l. induction l as [|p l IH]; intros b; cbn; auto. rewrite IH. apply put_flat1_length. }
  destruct (length vals =? length dof); intros H.
  - injection H as <-. apply G.
  - destruct vals as [|x [|y vals]]; try discriminate. injection H as <-. apply G'.
Qed.

(** Components outside [dof] are untouched (any values, any [dof]). *)
Lemma scatter_frame {A} (a : list (v3 A)) dof vals a' k :
  scatter a dof vals = Ok a' -> ~ In k dof -> nth_error (vflat a') k = nth_error (vflat a) k.
Proof.
  unfold scatter. destruct (forallb _ dof) eqn:E; [|discriminate].
  assert (E' : forall i, In i dof -> i < 3 * length a).
  { rewrite forallb_forall in E. intros i Hi. apply Nat.ltb_lt. auto. }
  clear E. intros H Hk.
  assert (G : forall l (b : list (v3 A)), length b = length a ->
            (forall p, In p l -> In (fst p) dof) ->
            nth_error (vflat (fold_left (fun acc p => put_flat1 acc (fst p) (snd p)) l b)) k
            = nth_error (vflat b) k).
  { intros l. induction l as [|p l IH]; intros b Hb Hp; cbn [fold_left]; auto.
    rewrite IH; [|rewrite put_flat1_length; exact Hb|intros; apply Hp; right; auto].
    assert (Hpd : In (fst p) dof) by (apply Hp; left; auto).
    rewrite put_flat1_flat by (rewrite Hb; apply E'; exact Hpd).
    apply nth_error_set_nth_neq. intros ->. contradiction. }
  assert (G' : forall x l (b : list (v3 A)), length b = length a ->
            (forall p, In p l -> In p dof) ->
            nth_error (vflat (fold_left (fun acc p => put_flat1 acc p x) l b)) k
            = nth_error (vflat b) k).
  { intros x l. induction l as [|p l IH]; intros b Hb Hp; cbn [fold_left]; auto.
    rewrite IH; [|rewrite put_flat1_length; exact Hb|intros; apply Hp; right; auto].
    assert (Hpd : In p dof) by (apply Hp; left; auto).
    rewrite put_flat1_flat by (rewrite Hb; apply E'; exact Hpd).
    apply nth_error_set_nth_neq. intros ->. contradiction. }
  destruct (length vals =? length dof).
  - injection H as <-. apply G; auto. intros [i v] Hi. apply in_combine_l in Hi. exact Hi.
  - destruct vals as [|x [|y vals]]; try discriminate. injection H as <-. apply G'; auto.
Qed.

Lemma scatter_total {A} (a : list (v3 A)) dof vals :
  (forall k, In k dof -> k < 3 * length a) -> length vals = length dof ->
  exists a', scatter a dof vals = Ok a'.
Proof.
  intros H Hl. unfold scatter.
  destruct (forallb _ dof) eqn:E.
  - rewrite Hl, Nat.eqb_refl. eauto.
  - exfalso. assert (forallb (fun k => k <? 3 * length a) dof = true).
    { apply forallb_forall. intros k Hk. apply Nat.ltb_lt. auto. } congruence.
Qed.

Lemma vflat_inj {A} (a b : list (v3 A)) : vflat a = vflat b -> a = b.
Proof.
  revert b. induction a as [|v a IH]; intros [|w b] H; auto; try discriminate.
  destruct v, w. cbn in H. injection H as -> -> -> H. f_equal. apply IH. exact H.
Qed.

Lemma last_snoc {A} (l : list A) a d : last (l ++ [a]) d = a.
Proof. induction l as [|x l IH]; auto. cbn. destruct (l ++ [a]) eqn:E; auto. destruct l; discriminate. Qed.

Lemma removelast_snoc {A} (l : list A) a : removelast (l ++ [a]) = l.
Proof. rewrite removelast_app by discriminate. cbn. apply app_nil_r. Qed.

Lemma py_pos_nonneg n i : (0 <= i < Z.of_nat n)%Z -> py_pos n i = Ok (Z.to_nat i).
Proof.
  intros H. unfold py_pos. destruct (Z.leb_spec 0 i); [|lia]. destruct (Z.ltb_spec i (Z.of_nat n)); [|lia].
  reflexivity.
Qed.

Lemma py_pos_lt n i p : py_pos n i = Ok p -> p < n.
Proof.
  unfold py_pos. destruct (Z.leb_spec 0 i); cbn [andb].
  - destruct (Z.ltb_spec i (Z.of_nat n)); [intros H'; injection H' as <-; lia|].
    destruct (Z.leb_spec (- Z.of_nat n) i); cbn [andb]; [|discriminate].
    destruct (Z.ltb_spec i 0); [lia|discriminate].
  - destruct (Z.leb_spec (- Z.of_nat n) i); cbn [andb]; [|discriminate].
    destruct (Z.ltb_spec i 0); [|discriminate]. intros H'. injection H' as <-. lia.
Qed.

Lemma py_get_nth {A} (a : list A) i x :
  py_get a i = Ok x <-> exists p, py_pos (length a) i = Ok p /\ nth_error a p = Some x.
Proof.
  unfold py_get. rewrite bind_ok. split; intros (p & Hp & H); exists p; split; auto.
  - destruct (nth_error a p); congruence.
  - rewrite H. reflexivity.
Qed.
