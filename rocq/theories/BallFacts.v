(** * Newton's method near a point with a continuous, nonsingular Jacobian *)
From Coq Require Import List ZArith Bool Arith Lia Reals Lra.
From Coquelicot Require Import Coquelicot.
Import ListNotations.
From Verif Require Import Num NumR Solver ListFacts EquilFacts SpecMechR SpecForm FormFacts SpecNewton.
Local Open Scope R_scope.

Notation ent M i k := (nth k (nth i M []) 0).

(** ** Sums and vectors *)
Lemma rsum_abs_le {A} (f g : A -> R) l : (forall x, In x l -> Rabs (f x) <= g x) -> Rabs (rsum (map f l)) <= rsum (map g l).
Proof.
  induction l as [|x l IH]; intros H; cbn [map rsum fold_right]; [rewrite Rabs_R0; lra|].
  eapply Rle_trans; [apply Rabs_triang|]. apply Rplus_le_compat; [apply H; left; reflexivity|apply IH; intros; apply H; right; assumption].
Qed.
Lemma rsum_const {A} (c : R) (l : list A) : rsum (map (fun _ => c) l) = INR (length l) * c.
Proof.
  induction l as [|x l IH]; [cbn; ring|]. cbn [length]. rewrite S_INR. cbn [map rsum fold_right].
  change (c + rsum (map (fun _ => c) l) = (INR (length l) + 1) * c). rewrite IH. ring.
Qed.
Lemma rsum_bound (f : nat -> R) n b : (forall k, (k < n)%nat -> Rabs (f k) <= b) -> Rabs (rsum (map f (seq 0 n))) <= INR n * b.
Proof.
  intros H. eapply Rle_trans; [apply (rsum_abs_le f (fun _ => b)); intros k Hk; apply H; apply in_seq in Hk; lia|].
  rewrite rsum_const, seq_length. lra.
Qed.
Lemma rsum_minus {A} (f g : A -> R) l : rsum (map (fun x => f x - g x) l) = rsum (map f l) - rsum (map g l).
Proof. induction l as [|x l IH]; cbn [map rsum fold_right]; [lra|]. fold (rsum (map (fun x => f x - g x) l)). rewrite IH. unfold rsum. lra. Qed.

Lemma rsum_le {A} (f g : A -> R) l : (forall x, In x l -> f x <= g x) -> rsum (map f l) <= rsum (map g l).
Proof.
  induction l as [|x l IH]; intros H; cbn [map rsum fold_right]; [lra|].
  apply Rplus_le_compat; [apply H; left; reflexivity|apply IH; intros; apply H; right; assumption].
Qed.
Lemma rsum_term {A} (f : A -> R) l x : (forall y, 0 <= f y) -> In x l -> f x <= rsum (map f l).
Proof.
  intros H0. induction l as [|y l IH]; intros [].
  - subst. cbn [map rsum fold_right]. assert (0 <= rsum (map f l)) by (apply rsum_nonneg; auto). unfold rsum in *. lra.
  - cbn [map rsum fold_right]. specialize (IH H). specialize (H0 y). unfold rsum in *. lra.
Qed.

Lemma rsum_delta (w : nat -> R) n l : (l < n)%nat ->
  rsum (map (fun i => w i * (if Nat.eqb i l then 1 else 0)) (seq 0 n)) = w l.
Proof.
  intros Hl. 
  assert (G : forall m a, rsum (map (fun i => w i * (if Nat.eqb i l then 1 else 0)) (seq a m)) = if (a <=? l)%nat && (l <? a + m)%nat then w l else 0).
  { induction m as [|m IH]; intros a; cbn [seq map rsum fold_right].
    - destruct (Nat.leb_spec a l), (Nat.ltb_spec l (a + 0)); cbn; try lia; reflexivity.
    - fold (rsum (map (fun i => w i * (if Nat.eqb i l then 1 else 0)) (seq (S a) m))). rewrite IH.
      destruct (Nat.eqb_spec a l), (Nat.leb_spec a l), (Nat.ltb_spec l (a + S m)), (Nat.leb_spec (S a) l), (Nat.ltb_spec l (S a + m));
        cbn; try lia; subst; ring. }
  rewrite G. destruct (Nat.leb_spec 0 l), (Nat.ltb_spec l (0 + n)); cbn; try lia; reflexivity.
Qed.

Lemma nth_map_seq (f : nat -> R) n k : (k < n)%nat -> nth k (map f (seq 0 n)) 0 = f k.
Proof. intros H. rewrite (nth_indep _ 0 (f 0%nat)) by (rewrite map_length, seq_length; exact H). rewrite map_nth, seq_nth by exact H. reflexivity. Qed.

Lemma max_abs (f : nat -> R) n : exists m, 0 <= m /\ (forall i, (i < n)%nat -> Rabs (f i) <= m) /\
  (m = 0 \/ exists i, (i < n)%nat /\ Rabs (f i) = m).
Proof.
  induction n as [|n (m & H0 & H1 & H2)].
  - exists 0. repeat split; [lra|lia|left; reflexivity].
  - destruct (Rle_dec (Rabs (f n)) m) as [Hl|Hl].
    + exists m. repeat split; [exact H0| |].
      * intros i Hi. destruct (Nat.eq_dec i n) as [->|]; [exact Hl|apply H1; lia].
      * destruct H2 as [->|(i & Hi & E)]; [left; reflexivity|right; exists i; split; [lia|exact E]].
    + exists (Rabs (f n)). repeat split; [apply Rabs_pos| |].
      * intros i Hi. destruct (Nat.eq_dec i n) as [->|]; [lra|]. specialize (H1 i ltac:(lia)). lra.
      * right. exists n. split; [lia|reflexivity].
Qed.

Lemma fnorm_bound (v : list R) n b : length v = n -> bounded n b v -> fnorm v <= INR n * b.
Proof.
  intros Hl Hb. subst n. unfold fnorm. cbn [fsqrt NumR].
  assert (G : 0 <= INR (length v) * b /\ fdot v v <= (INR (length v) * b) ^ 2).
  { clear -Hb. induction v as [|x v IH].
    - cbn. split; [lra|]. numR. nra.
    - cbn [length fdot]. rewrite S_INR. numR.
      destruct IH as [I1 I2]. { intros i Hi. apply (Hb (S i)). cbn. lia. }
      pose proof (Hb 0%nat ltac:(cbn; lia)) as Hx. cbn [nth] in Hx. pose proof (Rabs_pos x).
      assert (x * x <= b * b). { replace (x * x) with (Rabs x * Rabs x) by (rewrite <- Rabs_mult; apply Rabs_pos_eq; nra). nra. }
      numR. split; nra. }
  destruct G as [G1 G2]. rewrite <- (sqrt_pow2 (INR (length v) * b) G1). apply sqrt_le_1_alt. exact G2.
Qed.

Lemma row_times_len M v i n : length v = n -> row_times M v i = rsum (map (fun k => ent M i k * nth k v 0) (seq 0 n)).
Proof. intros <-. reflexivity. Qed.

(** ** A nonsingular matrix is bounded below, and so are the matrices near it *)
Section Lower.
  Variables (n : nat) (solve : list (list R) -> list R -> list R).
  Hypothesis Hsol : solves n solve.

  Definition sq (M : list (list R)) : Prop := length M = n /\ forall row, In row M -> length row = n.

  Definition basis (i : nat) : list R := map (fun k => if Nat.eqb i k then 1 else 0) (seq 0 n).

  Lemma lower_bound M : sq M -> nonsingular n M ->
    exists C, 0 < C /\ forall v b, length v = n -> (forall i, (i < n)%nat -> Rabs (row_times M v i) <= b) -> bounded n (C * b) v.
  Proof.
    intros [Hs1 Hs2] Hns. set (B := fun i k => nth k (solve M (basis i)) 0).
    assert (HB : forall i l, (i < n)%nat -> (l < n)%nat -> rsum (map (fun k => ent M l k * B i k) (seq 0 n)) = if Nat.eqb i l then 1 else 0).
    { intros i l Hi Hl. destruct (Hsol M (basis i) Hs1 Hs2 Hns) as [L E]; [unfold basis; rewrite map_length, seq_length; reflexivity|].
      specialize (E l Hl). rewrite (row_times_len _ _ _ n L) in E. unfold B. rewrite E. unfold basis. apply (nth_map_seq (fun k => if Nat.eqb i k then 1 else 0)). exact Hl. }
    set (T := rsum (map (fun i => rsum (map (fun k => Rabs (B i k)) (seq 0 n))) (seq 0 n))).
    assert (HT : forall k, (k < n)%nat -> rsum (map (fun i => Rabs (B i k)) (seq 0 n)) <= T).
    { intros k Hk. unfold T. apply rsum_le. intros i Hi.
      apply (rsum_term (fun k => Rabs (B i k)) (seq 0 n) k); [intros; apply Rabs_pos|apply in_seq; lia]. }
    assert (HT0 : 0 <= T). { apply rsum_nonneg. intros i _. apply rsum_nonneg. intros k _. apply Rabs_pos. }
    exists (1 + T). split; [lra|]. intros v b Hv Hb k Hk.
    set (w := fun i => row_times M v i). set (v' := map (fun k => rsum (map (fun i => w i * B i k) (seq 0 n))) (seq 0 n)).
    assert (Hv' : length v' = n) by (unfold v'; rewrite map_length, seq_length; reflexivity).
    assert (Hn' : forall k, (k < n)%nat -> nth k v' 0 = rsum (map (fun i => w i * B i k) (seq 0 n))).
    { intros k0 Hk0. apply (nth_map_seq (fun k => rsum (map (fun i => w i * B i k) (seq 0 n)))). exact Hk0. }
    assert (Hw : forall l, (l < n)%nat -> row_times M v' l = w l).
    { intros l Hl. rewrite (row_times_len _ _ _ n Hv').
      rewrite (rsum_ext _ (fun k => rsum (map (fun i => w i * (ent M l k * B i k)) (seq 0 n)))).
      2:{ intros k0 Hk0. apply in_seq in Hk0. rewrite Hn' by lia. rewrite <- rsum_scal. apply rsum_ext. intros; ring. }
      rewrite rsum_swap.
      rewrite (rsum_ext _ (fun i => w i * (if Nat.eqb i l then 1 else 0))).
      2:{ intros i Hi. apply in_seq in Hi. rewrite rsum_scal, HB by lia. reflexivity. }
      apply rsum_delta. exact Hl. }
    set (z := map (fun k => nth k v 0 - nth k v' 0) (seq 0 n)).
    assert (Hz : nth k z 0 = 0).
    { apply (Hns z); [unfold z; rewrite map_length, seq_length; reflexivity| |exact Hk].
      intros i Hi. rewrite (row_times_len _ _ _ n) by (unfold z; rewrite map_length, seq_length; reflexivity).
      rewrite (rsum_ext _ (fun k => ent M i k * nth k v 0 - ent M i k * nth k v' 0)).
      2:{ intros k0 Hk0. apply in_seq in Hk0. unfold z. rewrite (nth_map_seq (fun k => nth k v 0 - nth k v' 0)) by lia. ring. }
      rewrite rsum_minus, <- (row_times_len M v i n Hv), <- (row_times_len M v' i n Hv'), Hw by exact Hi. unfold w. ring. }
    unfold z in Hz. rewrite (nth_map_seq (fun k => nth k v 0 - nth k v' 0)) in Hz by exact Hk.
    replace (nth k v 0) with (nth k v' 0) by lra. rewrite Hn' by exact Hk.
    assert (Hb0 : 0 <= b). { specialize (Hb k Hk). pose proof (Rabs_pos (row_times M v k)). lra. }
    eapply Rle_trans; [apply (rsum_abs_le _ (fun i => b * Rabs (B i k)))|].
    { intros i Hi. apply in_seq in Hi. rewrite Rabs_mult. apply Rmult_le_compat_r; [apply Rabs_pos|]. apply Hb. lia. }
    rewrite rsum_scal. specialize (HT k Hk). nra.
  Qed.

  (** Matrices (given by entries) whose entries are within [e] of those of [M]. *)
  Lemma lower_near M C e (a : nat -> nat -> R) v b : 0 < C ->
    (forall v b, length v = n -> (forall i, (i < n)%nat -> Rabs (row_times M v i) <= b) -> bounded n (C * b) v) ->
    C * INR n * e <= 1 / 2 -> (forall i k, (i < n)%nat -> (k < n)%nat -> Rabs (a i k - ent M i k) <= e) ->
    length v = n -> (forall i, (i < n)%nat -> Rabs (rsum (map (fun k => a i k * nth k v 0) (seq 0 n))) <= b) ->
    bounded n (2 * C * b) v.
  Proof.
    intros HC Hlow He Ha Hv Hb. destruct (max_abs (fun i => nth i v 0) n) as (m & Hm0 & Hm1 & Hm2).
    assert (Hb0 : (0 < n)%nat -> 0 <= b). { intros Hn. specialize (Hb 0%nat Hn). pose proof (Rabs_pos (rsum (map (fun k => a 0%nat k * nth k v 0) (seq 0 n)))). lra. }
    assert (Hle : bounded n (C * (b + INR n * (e * m))) v).
    { apply Hlow; [exact Hv|]. intros i Hi. rewrite (row_times_len _ _ _ n Hv).
      replace (rsum (map (fun k => ent M i k * nth k v 0) (seq 0 n)))
        with (rsum (map (fun k => a i k * nth k v 0) (seq 0 n)) - rsum (map (fun k => (a i k - ent M i k) * nth k v 0) (seq 0 n))).
      2:{ rewrite <- rsum_minus. apply rsum_ext. intros; ring. }
      unfold Rminus. eapply Rle_trans; [apply Rabs_triang|]. rewrite Rabs_Ropp. apply Rplus_le_compat; [apply Hb; exact Hi|].
      apply rsum_bound. intros k Hk. rewrite Rabs_mult. apply Rmult_le_compat; try apply Rabs_pos; [apply Ha; assumption|apply Hm1; exact Hk]. }
    intros i Hi. specialize (Hm1 i Hi). specialize (Hb0 ltac:(lia)). destruct Hm2 as [->|(i0 & Hi0 & E)]; [nra|].
    specialize (Hle i0 Hi0). cbv beta in Hle, E. rewrite E in Hle.
    assert (C * INR n * e * m <= 1 / 2 * m) by (apply Rmult_le_compat_r; assumption). nra.
  Qed.
End Lower.

(** ** Mean values along the coordinates *)
Section Mean.
  Variables (n : nat) (F : list R -> list R) (J : list R -> list (list R)) (xs : list R) (r e : R).
  Hypothesis Hder : forall z, within n r z xs -> forall i k, (i < n)%nat -> (k < n)%nat ->
    is_derive (fun t => nth i (F (set_nth k t z)) 0) (nth k z 0) (ent (J z) i k).
  Hypothesis Hent : forall z, within n r z xs -> forall i k, (i < n)%nat -> (k < n)%nat -> Rabs (ent (J z) i k - ent (J xs) i k) <= e.

  Definition mix (x y : list R) (m : nat) : list R := map (fun k => if (k <? m)%nat then nth k y 0 else nth k x 0) (seq 0 n).

  Lemma mix_len x y m : length (mix x y m) = n.
  Proof. unfold mix. rewrite map_length, seq_length. reflexivity. Qed.
  Lemma mix_nth x y m k : (k < n)%nat -> nth k (mix x y m) 0 = if (k <? m)%nat then nth k y 0 else nth k x 0.
  Proof. intros H. apply (nth_map_seq (fun k => if (k <? m)%nat then nth k y 0 else nth k x 0)). exact H. Qed.

  Lemma vec_ext (x y : list R) : length x = n -> length y = n -> (forall k, (k < n)%nat -> nth k x 0 = nth k y 0) -> x = y.
  Proof. intros H1 H2 H. apply (nth_ext x y 0 0); [congruence|]. intros k Hk. apply H. lia. Qed.

  Lemma set_nth_val (x : list R) m t k : length x = n -> (k < n)%nat -> nth k (set_nth m t x) 0 = if Nat.eqb k m then t else nth k x 0.
  Proof. intros Hl Hk. rewrite nth_set_nth, Hl. destruct (Nat.eqb_spec k m) as [->|]; cbn [andb]; [|reflexivity]. destruct (Nat.ltb_spec m n); [reflexivity|lia]. Qed.

  Lemma set_mix x y m : (m < n)%nat -> set_nth m (nth m y 0) (mix x y m) = mix x y (S m).
  Proof.
    intros Hm. apply vec_ext; [rewrite set_nth_length; apply mix_len|apply mix_len|]. intros k Hk.
    rewrite set_nth_val, !mix_nth by (auto using mix_len).
    destruct (Nat.eqb_spec k m), (Nat.ltb_spec k m), (Nat.ltb_spec k (S m)); subst; try lia; reflexivity.
  Qed.
  Lemma set_mix_same x y m : (m < n)%nat -> set_nth m (nth m x 0) (mix x y m) = mix x y m.
  Proof.
    intros Hm. apply vec_ext; [rewrite set_nth_length; apply mix_len|apply mix_len|]. intros k Hk.
    rewrite set_nth_val, !mix_nth by (auto using mix_len).
    destruct (Nat.eqb_spec k m), (Nat.ltb_spec k m); subst; try lia; reflexivity.
  Qed.
  Lemma set_set_vec (x : list R) m t t' : length x = n -> set_nth m t' (set_nth m t x) = set_nth m t' x.
  Proof.
    intros Hl. apply vec_ext; [rewrite !set_nth_length; exact Hl..|]. intros k Hk.
    rewrite !set_nth_val by (rewrite ?set_nth_length; auto). destruct (Nat.eqb k m); reflexivity.
  Qed.

  Lemma mix_within x y m t : within n r x xs -> within n r y xs -> (m < n)%nat ->
    Rmin (nth m x 0) (nth m y 0) <= t <= Rmax (nth m x 0) (nth m y 0) -> within n r (set_nth m t (mix x y m)) xs.
  Proof.
    intros [_ Hx] [_ Hy] Hm Ht. split; [rewrite set_nth_length; apply mix_len|]. intros k Hk.
    rewrite set_nth_val, mix_nth by (auto using mix_len). destruct (Nat.eqb_spec k m) as [->|].
    - specialize (Hx m Hm). specialize (Hy m Hm). revert Hx Hy Ht. unfold Rmin, Rmax, Rabs.
      destruct (Rle_dec _ _); repeat destruct (Rcase_abs _); intros; lra.
    - destruct (k <? m)%nat; auto.
  Qed.

  Lemma mean_value x y i : within n r x xs -> within n r y xs -> (i < n)%nat ->
    exists a : nat -> R, (forall k, (k < n)%nat -> Rabs (a k - ent (J xs) i k) <= e) /\
      nth i (F y) 0 - nth i (F x) 0 = rsum (map (fun k => a k * (nth k y 0 - nth k x 0)) (seq 0 n)).
  Proof.
    intros Hx Hy Hi.
    assert (G : forall m, (m <= n)%nat -> exists a : nat -> R, (forall k, (k < m)%nat -> Rabs (a k - ent (J xs) i k) <= e) /\
      nth i (F (mix x y m)) 0 - nth i (F x) 0 = rsum (map (fun k => a k * (nth k y 0 - nth k x 0)) (seq 0 m))).
    { induction m as [|m IH]; intros Hm.
      - exists (fun _ => 0). split; [lia|]. replace (mix x y 0) with x; [cbn; lra|].
        apply vec_ext; [apply Hx|apply mix_len|]. intros k Hk. rewrite mix_nth by exact Hk. destruct (Nat.ltb_spec k 0); [lia|reflexivity].
      - destruct IH as (a & Ha & E); [lia|].
        set (g := fun t => nth i (F (set_nth m t (mix x y m))) 0).
        set (dg := fun t => ent (J (set_nth m t (mix x y m))) i m).
        assert (Hg : forall t, Rmin (nth m x 0) (nth m y 0) <= t <= Rmax (nth m x 0) (nth m y 0) -> is_derive g t (dg t)).
        { intros t Ht. pose proof (Hder _ (mix_within x y m t Hx Hy Hm Ht) i m Hi Hm) as D.
          rewrite set_nth_val, Nat.eqb_refl in D by (auto using mix_len).
          eapply is_derive_ext; [|exact D]. intros t'. unfold g. rewrite set_set_vec by apply mix_len. reflexivity. }
        destruct (MVT_gen g (nth m x 0) (nth m y 0) dg) as (c & Hc & Ec).
        { intros t Ht. apply Hg. lra. }
        { intros t Ht. apply continuity_pt_filterlim. apply (ex_derive_continuous (K:=R_AbsRing) (V:=R_NormedModule)). eexists. apply Hg. exact Ht. }
        unfold g in Ec. rewrite set_mix, set_mix_same in Ec by exact Hm.
        exists (fun k => if Nat.eqb k m then dg c else a k). split.
        { intros k Hk. destruct (Nat.eqb_spec k m) as [->|]; [apply Hent; auto; apply mix_within; assumption|apply Ha; lia]. }
        rewrite seq_S, map_app, rsum_app, Nat.add_0_l. cbn [map]. unfold rsum at 2. cbn [fold_right]. rewrite Nat.eqb_refl.
        rewrite (rsum_ext _ (fun k => a k * (nth k y 0 - nth k x 0))).
        2:{ intros k Hk. apply in_seq in Hk. destruct (Nat.eqb_spec k m); [lia|reflexivity]. }
        rewrite <- E. lra. }
    destruct (G n (le_n n)) as (a & Ha & E). exists a. split; [exact Ha|]. rewrite <- E. f_equal. f_equal. f_equal.
    apply vec_ext; [apply Hy|apply mix_len|]. intros k Hk. rewrite mix_nth by exact Hk. destruct (Nat.ltb_spec k n); [reflexivity|lia].
  Qed.
End Mean.

(** ** Newton's method *)
Section Kant.
  Variables (n : nat) (solve : list (list R) -> list R -> list R) (F : list R -> list R) (J : list R -> list (list R)) (xs : list R).
  Hypotheses (Hsol : solves n solve) (Hxs : length xs = n)
    (HF : forall x, length x = n -> length (F x) = n) (HJ : forall x, length x = n -> sq n (J x)).
  Context {T : Type}.
  Variables (fn : list R -> T -> res (T * list R)) (dfn : list R -> T -> res (T * list (list R))) (Inv : T -> Prop).
  Hypothesis Hfn : forall x s, length x = n -> Inv s -> exists s', fn x s = Ok (s', F x) /\ Inv s'.
  Hypothesis Hdfn : forall x s, length x = n -> Inv s -> exists s', dfn x s = Ok (s', J x) /\ Inv s'.

  Lemma within_le d d' x y : within n d x y -> d <= d' -> within n d' x y.
  Proof. intros [H1 H2] H. split; [exact H1|]. intros i Hi. specialize (H2 i Hi). lra. Qed.
  Lemma bounded_le d d' x : bounded n d x -> d <= d' -> bounded n d' x.
  Proof. intros H1 H i Hi. specialize (H1 i Hi). lra. Qed.
  Lemma within_trans d d' x y z : within n d x y -> within n d' y z -> within n (d + d') x z.
  Proof.
    intros [H1 H2] [H3 H4]. split; [exact H1|]. intros i Hi. specialize (H2 i Hi). specialize (H4 i Hi).
    replace (nth i x 0 - nth i z 0) with ((nth i x 0 - nth i y 0) + (nth i y 0 - nth i z 0)) by ring.
    eapply Rle_trans; [apply Rabs_triang|]. lra.
  Qed.

  Section Fixed.
    Variables (C e r : R).
    Hypotheses (HC : 0 < C) (He : 0 < e) (Hr : 0 < r).
    Hypothesis Hlow : forall v b, length v = n -> (forall i, (i < n)%nat -> Rabs (row_times (J xs) v i) <= b) -> bounded n (C * b) v.
    Hypothesis HCe : C * INR n * e <= 1 / 2.
    Hypothesis Hd : forall z, within n r z xs -> forall i k, (i < n)%nat -> (k < n)%nat ->
      is_derive (fun t => nth i (F (set_nth k t z)) 0) (nth k z 0) (ent (J z) i k).
    Hypothesis Hc : forall z, within n r z xs -> forall i k, (i < n)%nat -> (k < n)%nat -> Rabs (ent (J z) i k - ent (J xs) i k) <= e.

    Lemma near_nonsingular x : within n r x xs -> nonsingular n (J x).
    Proof.
      intros Hx v Hv H0 i Hi.
      pose proof (lower_near n (J xs) C e (fun i k => ent (J x) i k) v 0 HC Hlow HCe (Hc x Hx) Hv) as Hb.
      assert (Rabs (nth i v 0) <= 2 * C * 0).
      { apply Hb; [|exact Hi]. intros l Hl. rewrite <- (row_times_len _ _ _ n Hv), H0, Rabs_R0 by exact Hl. lra. }
      pose proof (Rabs_pos (nth i v 0)). destruct (Req_dec (nth i v 0) 0) as [|Hne]; [assumption|].
      apply Rabs_pos_lt in Hne. lra.
    Qed.

    Lemma map2_nth (x y : list R) i : length x = n -> length y = n -> (i < n)%nat -> nth i (map2 Rplus x y) 0 = nth i x 0 + nth i y 0.
    Proof.
      intros Hx Hy Hi. pose proof (nth_nth_error x i 0 ltac:(lia)) as Ex. pose proof (nth_nth_error y i 0 ltac:(lia)) as Ey.
      assert (E : nth_error (map2 Rplus x y) i = Some (nth i x 0 + nth i y 0)) by (rewrite nth_error_map2, Ex, Ey; reflexivity).
      apply nth_error_nth with (d := 0) in E. exact E.
    Qed.

    Lemma newton_step x b : within n r x xs -> bounded n b (F x) ->
      let dx := solve (J x) (map fopp (F x)) in
      length dx = n /\ bounded n (2 * C * b) dx /\
      (within n r (map2 Rplus x dx) xs -> bounded n (INR n * (2 * e * (2 * C * b))) (F (map2 Rplus x dx))).
    Proof.
      intros Hx Hb dx. pose proof (proj1 Hx) as Hlx. destruct (HJ x Hlx) as [HJ1 HJ2].
      destruct (Hsol (J x) (map fopp (F x)) HJ1 HJ2 (near_nonsingular x Hx)) as [Hdx Eq]; [rewrite map_length; apply HF; exact Hlx|].
      fold dx in Hdx, Eq.
      assert (Eq' : forall i, (i < n)%nat -> row_times (J x) dx i = - nth i (F x) 0).
      { intros i Hi. rewrite Eq by exact Hi. rewrite (nth_indep _ 0 (- 0)) by (rewrite map_length, HF; auto).
        change (nth i (map Ropp (F x)) (Ropp 0) = - nth i (F x) 0). apply map_nth. }
      assert (Bdx : bounded n (2 * C * b) dx).
      { apply (lower_near n (J xs) C e (fun i k => ent (J x) i k) dx b HC Hlow HCe (Hc x Hx) Hdx).
        intros i Hi. rewrite <- (row_times_len _ _ _ n Hdx), Eq', Rabs_Ropp by exact Hi. apply Hb. exact Hi. }
      split; [exact Hdx|]. split; [exact Bdx|]. intros Hx' i Hi.
      destruct (mean_value n F J xs r e Hd Hc x (map2 Rplus x dx) i Hx Hx' Hi) as (a & Ha & E).
      replace (nth i (F (map2 Rplus x dx)) 0) with (rsum (map (fun k => (a k - ent (J x) i k) * nth k dx 0) (seq 0 n))).
      2:{ rewrite (rsum_ext _ (fun k => a k * (nth k (map2 Rplus x dx) 0 - nth k x 0) - ent (J x) i k * nth k dx 0)).
          2:{ intros k Hk. apply in_seq in Hk. rewrite map2_nth by (auto; lia). ring. }
          rewrite rsum_minus, <- E, <- (row_times_len _ _ _ n Hdx), Eq' by exact Hi. ring. }
      apply rsum_bound. intros k Hk. rewrite Rabs_mult. apply Rmult_le_compat; try apply Rabs_pos; [|apply Bdx; exact Hk].
      replace (a k - ent (J x) i k) with ((a k - ent (J xs) i k) - (ent (J x) i k - ent (J xs) i k)) by ring.
      pose proof (Ha k Hk). pose proof (Hc x Hx i k Hi Hk). unfold Rminus at 1. eapply Rle_trans; [apply Rabs_triang|]. rewrite Rabs_Ropp. lra.
    Qed.

    Variable q : R.
    Hypotheses (Hq : 0 < q < 1) (HCq : 4 * C * INR n * e <= q).

    Lemma newton_runs ftol xtol : forall m k cnt x d b prev s, (m < k)%nat -> Inv s -> within n d x xs -> bounded n b (F x) -> 0 <= b ->
      d + 2 * C / (1 - q) * b <= r ->
      INR n * (2 * C + 1) * (q ^ m * b) < ftol -> INR n * (2 * C + 1) * (q ^ m * b) < xtol ->
      exists s' o, newton_loop solve fn dfn ftol xtol k cnt x prev s = Ok (s', o) /\ no_success o = true /\ Inv s' /\
        within n r (no_x o) xs /\ exists t, (1 <= t <= S m)%nat /\ no_n o = (cnt + Z.of_nat t)%Z /\
        within n (2 * C / (1 - q) * b) (no_x o) x /\ bounded n (q ^ t * b) (F (no_x o)).
    Proof.
      induction m as [|m IH]; intros k cnt x d b prev s Hk Hs Hx Hb Hb0 Hd' Hf Hxt.
      all: destruct k as [|k]; [lia|]; cbn [newton_loop].
      all: pose proof (proj1 Hx) as Hlx.
      all: assert (Hkq : 2 * C * b + 2 * C / (1 - q) * (q * b) = 2 * C / (1 - q) * b) by (field; lra).
      all: assert (Hkq0 : 0 <= 2 * C / (1 - q) * (q * b)) by (apply Rmult_le_pos; [apply Rlt_le, Rdiv_lt_0_compat; lra|apply Rmult_le_pos; lra]).
      all: assert (Hxr : within n r x xs) by (eapply within_le; [exact Hx|nra]).
      all: destruct (Hdfn x s Hlx Hs) as (s1 & -> & Hs1); cbn [bind].
      all: destruct (Hfn x s1 Hlx Hs1) as (s2 & -> & Hs2); cbn [bind].
      all: destruct (newton_step x b Hxr Hb) as (Hdx & Bdx & Hnext); set (dx := solve (J x) (map fopp (F x))) in *.
      all: assert (Ebc : bcast2 fadd x dx = Ok (map2 Rplus x dx)) by (unfold bcast2; rewrite Hlx, Hdx, Nat.eqb_refl; reflexivity).
      all: rewrite Ebc; cbn [bind]; set (x' := map2 Rplus x dx) in *.
      all: assert (Hlx' : length x' = n) by (unfold x'; rewrite map2_length; lia).
      all: assert (Hx'x : within n (2 * C * b) x' x) by (split; [exact Hlx'|]; intros i Hi; unfold x'; rewrite map2_nth by auto;
             replace (nth i x 0 + nth i dx 0 - nth i x 0) with (nth i dx 0) by ring; apply Bdx; exact Hi).
      all: assert (Hx' : within n (2 * C * b + d) x' xs) by (eapply within_trans; eassumption).
      all: assert (Hx'r : within n r x' xs) by (eapply within_le; [exact Hx'|lra]).
      all: specialize (Hnext Hx'r).
      all: assert (Bx' : bounded n (q * b) (F x')) by (eapply bounded_le; [exact Hnext|]; apply Rle_trans with ((4 * C * INR n * e) * b); [right; ring|apply Rmult_le_compat_r; assumption]).
      all: destruct (Hfn x' s2 Hlx' Hs2) as (s3 & -> & Hs3); cbn [bind].
      all: pose proof (fnorm_bound (F x') n (q * b) (HF _ Hlx') Bx') as Nf.
      all: pose proof (fnorm_bound dx n (2 * C * b) Hdx Bdx) as Nx.
      all: destruct (fltb (fnorm (F x')) ftol && fltb (fnorm dx) xtol)%bool eqn:Et.
      1,3: exists s3, (NOut x' true (cnt + 1) (fnorm (F x')) (fnorm dx)); split; [reflexivity|]; cbn [no_success no_x no_n];
           split; [reflexivity|]; split; [exact Hs3|]; split; [exact Hx'r|]; exists 1%nat; split; [lia|]; split; [lia|];
           split; [eapply within_le; [exact Hx'x|lra]|rewrite pow_1; exact Bx'].
      - exfalso. cbn [pow] in Hf, Hxt. rewrite Rmult_1_l in Hf, Hxt. apply andb_false_iff in Et.
        pose proof (pos_INR n) as Hn0.
        assert (INR n * (q * b) <= INR n * (2 * C + 1) * b). { rewrite Rmult_assoc. apply Rmult_le_compat_l; [exact Hn0|]. apply Rmult_le_compat_r; lra. }
        assert (INR n * (2 * C * b) <= INR n * (2 * C + 1) * b). { rewrite (Rmult_assoc (INR n)). apply Rmult_le_compat_l; [exact Hn0|]. apply Rmult_le_compat_r; lra. }
        destruct Et as [Et|Et]; apply Rltb_false in Et; lra.
      - destruct (IH k (cnt + 1)%Z x' (2 * C * b + d) (q * b) (Some (fnorm (F x'), fnorm dx)) s3) as (s' & o & E & Hok & Hs' & Hr' & t & Ht & Hn & Hw & Hbt).
        { lia. } { exact Hs3. } { exact Hx'. } { exact Bx'. } { apply Rmult_le_pos; lra. } { lra. }
        { replace (q ^ m * (q * b)) with (q ^ S m * b) by (cbn [pow]; ring). exact Hf. }
        { replace (q ^ m * (q * b)) with (q ^ S m * b) by (cbn [pow]; ring). exact Hxt. }
        exists s', o. split; [exact E|]. split; [exact Hok|]. split; [exact Hs'|]. split; [exact Hr'|].
        exists (S t). split; [lia|]. split; [rewrite Hn; lia|]. split.
        + eapply within_le; [eapply within_trans; [exact Hw|exact Hx'x]|lra].
        + replace (q ^ S t * b) with (q ^ t * (q * b)) by (cbn [pow]; ring). exact Hbt.
    Qed.

    Lemma residual_controls x b : F xs = repeat 0 n -> within n r x xs -> bounded n b (F x) -> within n (2 * C * b) x xs.
    Proof.
      intros H0 Hx Hb. pose proof (proj1 Hx) as Hlx. split; [exact Hlx|].
      assert (Hxs' : within n r xs xs) by (split; [exact Hxs|]; intros i Hi; rewrite Rminus_eq_0, Rabs_R0; lra).
      set (v := map (fun k => nth k x 0 - nth k xs 0) (seq 0 n)).
      assert (Hv : length v = n) by (unfold v; rewrite map_length, seq_length; reflexivity).
      assert (G : forall m, (m <= n)%nat -> exists a : nat -> nat -> R, forall i, (i < m)%nat -> (forall k, (k < n)%nat -> Rabs (a i k - ent (J xs) i k) <= e) /\
        nth i (F x) 0 = rsum (map (fun k => a i k * nth k v 0) (seq 0 n))).
      { induction m as [|m IHm]; intros Hm; [exists (fun _ _ => 0); lia|]. destruct IHm as [a Ha]; [lia|].
        destruct (mean_value n F J xs r e Hd Hc xs x m Hxs' Hx Hm) as (am & Ham & E).
        exists (fun i k => if Nat.eqb i m then am k else a i k). intros i Hi. destruct (Nat.eqb_spec i m) as [->|].
        - split; [exact Ham|]. rewrite H0, nth_repeat, Rminus_0_r in E. rewrite E. apply rsum_ext. intros k Hk. apply in_seq in Hk.
          unfold v. rewrite (nth_map_seq (fun k => nth k x 0 - nth k xs 0)) by lia. reflexivity.
        - apply Ha. lia. }
      destruct (G n (le_n n)) as (a & Ha). intros i Hi.
      pose proof (lower_near n (J xs) C e a v b HC Hlow HCe) as Hb'. unfold bounded in Hb'.
      rewrite <- (nth_map_seq (fun k => nth k x 0 - nth k xs 0) n i Hi). apply Hb'; [|exact Hv| |exact Hi].
      - intros i0 k Hi0 Hk. apply (Ha i0 Hi0). exact Hk.
      - intros i0 Hi0. rewrite <- (proj2 (Ha i0 Hi0)). apply Hb. exact Hi0.
    Qed.

    Lemma residual_small x d L : F xs = repeat 0 n -> within n d x xs -> d <= r -> 
      (forall i k, (i < n)%nat -> (k < n)%nat -> Rabs (ent (J xs) i k) <= L) -> bounded n (INR n * ((L + e) * d)) (F x).
    Proof.
      intros H0 Hx Hdr HL i Hi. assert (Hxs' : within n r xs xs) by (split; [exact Hxs|]; intros l Hl; rewrite Rminus_eq_0, Rabs_R0; lra).
      assert (Hxr : within n r x xs) by (eapply within_le; eassumption).
      destruct (mean_value n F J xs r e Hd Hc xs x i Hxs' Hxr Hi) as (a & Ha & E).
      rewrite H0, nth_repeat, Rminus_0_r in E. rewrite E. apply rsum_bound. intros k Hk. rewrite Rabs_mult.
      apply Rmult_le_compat; try apply Rabs_pos; [|apply Hx; exact Hk].
      replace (a k) with (ent (J xs) i k + (a k - ent (J xs) i k)) by ring. eapply Rle_trans; [apply Rabs_triang|].
      apply Rplus_le_compat; [apply HL; assumption|apply Ha; exact Hk].
    Qed.
  End Fixed.
End Kant.

(** Functions with a common Jacobian, such as residuals for different targets
    of the control component. *)
Section Family.
  Variables (n : nat) (solve : list (list R) -> list R -> list R) (W : Type) (good : W -> Prop)
    (F : W -> list R -> list R) (J : list R -> list (list R)) (xs : list R).
  Hypotheses (Hsol : solves n solve) (Hxs : length xs = n)
    (HF : forall w x, good w -> length x = n -> length (F w x) = n) (HJ : forall x, length x = n -> sq n (J x))
    (Hns : nonsingular n (J xs)).
  Hypothesis Hder : exists d, 0 < d /\ forall w z, good w -> within n d z xs -> forall i k, (i < n)%nat -> (k < n)%nat ->
    is_derive (fun t => nth i (F w (set_nth k t z)) 0) (nth k z 0) (ent (J z) i k).
  Hypothesis Hcont : forall e, 0 < e -> exists d, 0 < d /\ forall z, within n d z xs -> forall i k, (i < n)%nat -> (k < n)%nat ->
    Rabs (ent (J z) i k - ent (J xs) i k) <= e.
  Context {T : Type}.
  Variables (fn : W -> list R -> T -> res (T * list R)) (dfn : list R -> T -> res (T * list (list R))) (Inv : T -> Prop).
  Hypothesis Hfn : forall w x s, good w -> length x = n -> Inv s -> exists s', fn w x s = Ok (s', F w x) /\ Inv s'.
  Hypothesis Hdfn : forall x s, length x = n -> Inv s -> exists s', dfn x s = Ok (s', J x) /\ Inv s'.

  Lemma constants : exists C, 0 < C /\
    (forall v b, length v = n -> (forall i, (i < n)%nat -> Rabs (row_times (J xs) v i) <= b) -> bounded n (C * b) v) /\
    forall q, 0 < q < 1 -> exists e r, 0 < e <= 1 /\ 0 < r /\ C * INR n * e <= 1 / 2 /\ 4 * C * INR n * e <= q /\
      (forall w, good w -> forall z, within n r z xs -> forall i k, (i < n)%nat -> (k < n)%nat ->
        is_derive (fun t => nth i (F w (set_nth k t z)) 0) (nth k z 0) (ent (J z) i k)) /\
      (forall z, within n r z xs -> forall i k, (i < n)%nat -> (k < n)%nat -> Rabs (ent (J z) i k - ent (J xs) i k) <= e).
  Proof.
    destruct (lower_bound n solve Hsol (J xs) (HJ xs Hxs) Hns) as (C & HC & Hlow). exists C. split; [exact HC|]. split; [exact Hlow|].
    intros q Hq. pose proof (pos_INR n) as Hn0. set (K := 4 * C * INR n + 1).
    assert (HK : 1 <= K) by (unfold K; assert (0 <= C * INR n) by (apply Rmult_le_pos; lra); lra).
    set (e := q / K). assert (He : 0 < e) by (apply Rdiv_lt_0_compat; lra).
    assert (HeK : K * e = q) by (unfold e; field; lra).
    assert (He1 : e <= 1) by nra.
    assert (HCe : 4 * C * INR n * e <= q) by (unfold K in HeK; lra).
    destruct Hder as (d1 & Hd1 & D1). destruct (Hcont e He) as (d2 & Hd2 & D2).
    exists e, (Rmin d1 d2). split; [lra|]. split; [apply Rmin_pos; assumption|]. split; [lra|]. split; [exact HCe|]. split.
    - intros w Hw z Hz. apply D1; [exact Hw|]. eapply within_le; [exact Hz|apply Rmin_l].
    - intros z Hz. apply D2. eapply within_le; [exact Hz|apply Rmin_r].
  Qed.

  Lemma pow_small q K tol : 0 < q < 1 -> 0 <= K -> 0 < tol -> exists m, K * q ^ m < tol.
  Proof.
    intros Hq HK Ht. destruct (pow_lt_1_zero q ltac:(rewrite Rabs_pos_eq; lra) (tol / (K + 1)) ltac:(apply Rdiv_lt_0_compat; lra)) as [m Hm].
    exists m. specialize (Hm m (le_n m)). rewrite Rabs_pos_eq in Hm by (apply pow_le; lra).
    assert (0 <= q ^ m) by (apply pow_le; lra).
    assert ((K + 1) * q ^ m < tol). { replace tol with ((K + 1) * (tol / (K + 1))) by (field; lra). apply Rmult_lt_compat_l; lra. }
    lra.
  Qed.

  (** From any point close to [xs] where the residual is small. *)
  Theorem newton_converges q : 0 < q < 1 -> exists r C, 0 < r /\ 0 < C /\ forall ftol xtol, 0 < ftol -> 0 < xtol ->
    exists N, forall w x b nfev s, good w -> Inv s -> within n r x xs -> bounded n b (F w x) -> 0 <= b -> C * b <= r -> (Z.of_nat N <= nfev)%Z ->
      exists s' o, newton solve (fn w) dfn x nfev ftol xtol s = Ok (s', o) /\ no_success o = true /\ Inv s' /\
        (1 <= no_n o <= Z.of_nat N)%Z /\ within n (C * b) (no_x o) x /\ bounded n (q ^ Z.to_nat (no_n o) * b) (F w (no_x o)).
  Proof.
    intros Hq. destruct constants as (C & HC & Hlow & Hall). destruct (Hall q Hq) as (e & r & He & Hr & HCe & HCq & Hd & Hc).
    assert (HC2 : 0 < 2 * C / (1 - q)) by (apply Rdiv_lt_0_compat; lra).
    exists (r / 2), (2 * C / (1 - q)). split; [lra|]. split; [exact HC2|]. intros ftol xtol Hft Hxt.
    pose proof (pos_INR n) as Hn0.
    set (B := (r / 2) / (2 * C / (1 - q))). assert (HB : 0 < B) by (apply Rdiv_lt_0_compat; lra).
    destruct (pow_small q (INR n * (2 * C + 1) * B) (Rmin ftol xtol) Hq) as (m & Hm).
    { apply Rmult_le_pos; [apply Rmult_le_pos; lra|lra]. } { apply Rmin_pos; assumption. }
    exists (S m). intros w x b nfev s Hw Hs Hx Hb Hb0 HCb Hnf.
    assert (HbB : b <= B).
    { unfold B. apply (Rmult_le_reg_l (2 * C / (1 - q))); [exact HC2|]. replace (2 * C / (1 - q) * (r / 2 / (2 * C / (1 - q)))) with (r / 2) by (field; lra). exact HCb. }
    assert (Hlt : INR n * (2 * C + 1) * (q ^ m * b) < Rmin ftol xtol).
    { eapply Rle_lt_trans; [|exact Hm]. replace (INR n * (2 * C + 1) * B * q ^ m) with (INR n * (2 * C + 1) * (q ^ m * B)) by ring.
      apply Rmult_le_compat_l; [apply Rmult_le_pos; lra|]. apply Rmult_le_compat_l; [apply pow_le; lra|exact HbB]. }
    unfold newton.
    destruct (newton_runs n solve (F w) J xs Hsol Hxs (fun x => HF w x Hw) HJ (fn w) dfn Inv (fun x s => Hfn w x s Hw) Hdfn C e r HC Hlow HCe (Hd w Hw) Hc q Hq HCq ftol xtol m (Z.to_nat nfev) 0%Z x (r / 2) b None s)
      as (s' & o & E & Hok & Hs' & _ & t & Ht & Hn & Hwi & Hbt).
    { lia. } { exact Hs. } { exact Hx. } { exact Hb. } { exact Hb0. } { lra. }
    { eapply Rlt_le_trans; [exact Hlt|apply Rmin_l]. } { eapply Rlt_le_trans; [exact Hlt|apply Rmin_r]. }
    exists s', o. split; [exact E|]. split; [exact Hok|]. split; [exact Hs'|]. split; [lia|]. split; [exact Hwi|].
    rewrite Hn, Z.add_0_l, Nat2Z.id. exact Hbt.
  Qed.

  (** Towards a solution the error shrinks by any wanted factor per iteration. *)
  Theorem newton_superlinear w q : good w -> F w xs = repeat 0 n -> 0 < q < 1 -> exists r, 0 < r /\ forall ftol xtol, 0 < ftol -> 0 < xtol ->
    exists N, forall x d nfev s, Inv s -> within n d x xs -> 0 <= d <= r -> (Z.of_nat N <= nfev)%Z ->
      exists s' o, newton solve (fn w) dfn x nfev ftol xtol s = Ok (s', o) /\ no_success o = true /\ Inv s' /\
        (1 <= no_n o <= Z.of_nat N)%Z /\ within n (q ^ Z.to_nat (no_n o) * d) (no_x o) xs.
  Proof.
    intros Hw H0 Hq. destruct constants as (C & HC & Hlow & Hall). pose proof (pos_INR n) as Hn0.
    set (L := rsum (map (fun i => rsum (map (fun k => Rabs (ent (J xs) i k)) (seq 0 n))) (seq 0 n))).
    assert (HL0 : 0 <= L) by (apply rsum_nonneg; intros; apply rsum_nonneg; intros; apply Rabs_pos).
    assert (HL : forall i k, (i < n)%nat -> (k < n)%nat -> Rabs (ent (J xs) i k) <= L).
    { intros i k Hi Hk. eapply Rle_trans; [apply (rsum_term (fun k => Rabs (ent (J xs) i k)) (seq 0 n) k); [intros; apply Rabs_pos|apply in_seq; lia]|].
      apply (rsum_term (fun i => rsum (map (fun k => Rabs (ent (J xs) i k)) (seq 0 n))) (seq 0 n) i); [intros; apply rsum_nonneg; intros; apply Rabs_pos|apply in_seq; lia]. }
    set (M := INR n * (L + 1)). assert (HM : 0 <= M) by (apply Rmult_le_pos; lra).
    set (K := 1 + 2 * C * M). assert (HK : 1 <= K). { unfold K. assert (0 <= C * M) by (apply Rmult_le_pos; lra). lra. }
    set (p := q / K). assert (HpK : K * p = q) by (unfold p; field; lra).
    assert (Hp0 : 0 < p) by (apply Rdiv_lt_0_compat; lra). assert (Hp : 0 < p < 1) by nra.
    destruct (Hall p Hp) as (e & r & He & Hr & HCe & HCq & Hd & Hc).
    assert (HC2 : 0 < 2 * C / (1 - p)) by (apply Rdiv_lt_0_compat; lra).
    set (ww := 1 + 2 * C / (1 - p) * M). assert (Hw1 : 1 <= ww). { unfold ww. assert (0 <= 2 * C / (1 - p) * M) by (apply Rmult_le_pos; lra). lra. }
    exists (r / ww). split; [apply Rdiv_lt_0_compat; lra|]. intros ftol xtol Hft Hxt.
    destruct (pow_small p (INR n * (2 * C + 1) * (M * r)) (Rmin ftol xtol) Hp) as (m & Hm).
    { apply Rmult_le_pos; [apply Rmult_le_pos; lra|apply Rmult_le_pos; lra]. } { apply Rmin_pos; assumption. }
    exists (S m). intros x d nfev s Hs Hx Hdr Hnf.
    assert (Hwd : ww * d <= r). { replace r with (ww * (r / ww)) by (field; lra). apply Rmult_le_compat_l; lra. }
    assert (Hdr' : d <= r). { apply Rle_trans with (ww * d); [|exact Hwd]. rewrite <- (Rmult_1_l d) at 1. apply Rmult_le_compat_r; lra. }
    assert (Hb : bounded n (M * d) (F w x)).
    { eapply bounded_le; [apply (residual_small n (F w) J xs Hxs e r Hr (Hd w Hw) Hc x d L H0 Hx Hdr' HL)|].
      unfold M. rewrite Rmult_assoc. apply Rmult_le_compat_l; [exact Hn0|]. apply Rmult_le_compat_r; lra. }
    assert (HMd : 0 <= M * d) by (apply Rmult_le_pos; lra).
    assert (Hlt : INR n * (2 * C + 1) * (p ^ m * (M * d)) < Rmin ftol xtol).
    { eapply Rle_lt_trans; [|exact Hm]. replace (INR n * (2 * C + 1) * (M * r) * p ^ m) with (INR n * (2 * C + 1) * (p ^ m * (M * r))) by ring.
      apply Rmult_le_compat_l; [apply Rmult_le_pos; lra|]. apply Rmult_le_compat_l; [apply pow_le; lra|]. apply Rmult_le_compat_l; lra. }
    unfold newton.
    destruct (newton_runs n solve (F w) J xs Hsol Hxs (fun x => HF w x Hw) HJ (fn w) dfn Inv (fun x s => Hfn w x s Hw) Hdfn C e r HC Hlow HCe (Hd w Hw) Hc p Hp HCq ftol xtol m (Z.to_nat nfev) 0%Z x d (M * d) None s)
      as (s' & o & E & Hok & Hs' & Hor & t & Ht & Hn & _ & Hbt).
    { lia. } { exact Hs. } { exact Hx. } { exact Hb. } { exact HMd. } { unfold ww in Hwd. lra. }
    { eapply Rlt_le_trans; [exact Hlt|apply Rmin_l]. } { eapply Rlt_le_trans; [exact Hlt|apply Rmin_r]. }
    exists s', o. split; [exact E|]. split; [exact Hok|]. split; [exact Hs'|]. split; [lia|].
    rewrite Hn, Z.add_0_l, Nat2Z.id.
    eapply within_le; [apply (residual_controls n (F w) J xs Hxs C e r HC Hr Hlow HCe (Hd w Hw) Hc _ _ H0 Hor Hbt)|].
    assert (Hpt : 2 * C * M * p ^ t <= q ^ t).
    { replace q with (K * p) by exact HpK. rewrite Rpow_mult_distr. apply Rmult_le_compat_r; [apply pow_le; lra|].
      destruct t as [|t]; [lia|]. cbn [pow]. assert (1 <= K ^ t) by (apply pow_R1_Rle; exact HK). unfold K at 1. unfold K in HK. nra. }
    replace (2 * C * (p ^ t * (M * d))) with ((2 * C * M * p ^ t) * d) by ring. apply Rmult_le_compat_r; lra.
  Qed.
End Family.
