(** * Evaluations of a mirrored truss *)
From Coq Require Import List ZArith Bool Arith Lia Reals Lra.
Import ListNotations.
From Verif Require Import Num NumR Vec Handlers Material Analysis Truss Equil Solver Run ListFacts SpecSame SpecMirror.
Local Open Scope R_scope.

(** ** Signs *)
Lemma opp_if_0 b : opp_if b 0 = 0.
Proof. destruct b; cbn; ring. Qed.
Lemma opp_if_add b x y : opp_if b (x + y) = opp_if b x + opp_if b y.
Proof. destruct b; cbn; ring. Qed.
Lemma opp_if_sub b x y : opp_if b (x - y) = opp_if b x - opp_if b y.
Proof. destruct b; cbn; ring. Qed.
Lemma opp_if_opp b x : opp_if b (- x) = - opp_if b x.
Proof. destruct b; cbn; ring. Qed.
Lemma opp_if_scale b a x : opp_if b (a * x) = a * opp_if b x.
Proof. destruct b; cbn; ring. Qed.
Lemma opp_if_scale_r b a x : opp_if b (a * x) = opp_if b a * x.
Proof. destruct b; cbn; ring. Qed.
Lemma opp_if_div b a x : opp_if b (a / x) = opp_if b a / x.
Proof. unfold Rdiv. apply opp_if_scale_r. Qed.
Lemma opp_if_sq b x y : opp_if b x * opp_if b y = x * y.
Proof. destruct b; cbn; ring. Qed.
Lemma opp_if_abs b x : Rabs (opp_if b x) = Rabs x.
Proof. destruct b; cbn; [apply Rabs_Ropp|reflexivity]. Qed.
Lemma opp_if_comm b c x : opp_if b (opp_if c x) = opp_if c (opp_if b x).
Proof. destruct b, c; cbn; ring. Qed.
Lemma opp_if_twice b x : opp_if b (opp_if b x) = x.
Proof. destruct b; cbn; ring. Qed.

(** ** Lists *)
Lemma flip_length bs x : length (flip bs x) = Nat.min (length bs) (length x).
Proof. apply map2_length. Qed.
Lemma flip_len bs x : (length x <= length bs)%nat -> length (flip bs x) = length x.
Proof. intros. rewrite flip_length. lia. Qed.
Lemma nth_flip bs x i : nth_error (flip bs x) i = match nth_error bs i, nth_error x i with Some b, Some v => Some (opp_if b v) | _, _ => None end.
Proof. apply nth_error_map2. Qed.
Lemma flip_app b1 b2 x1 x2 : length b1 = length x1 -> flip (b1 ++ b2) (x1 ++ x2) = flip b1 x1 ++ flip b2 x2.
Proof. revert x1. induction b1 as [|b b1 IH]; intros [|x x1] H; try discriminate; [reflexivity|]. unfold flip in *. cbn. f_equal. apply IH. injection H; auto. Qed.
Lemma flip_map bs x f : (forall b y, opp_if b (f y) = f (opp_if b y)) -> flip bs (map f x) = map f (flip bs x).
Proof. intros H. revert x. induction bs as [|b bs IH]; intros [|y x]; cbn; try reflexivity. f_equal; [apply H|apply IH]. Qed.
Lemma flip_opp bs x : flip bs (map Ropp x) = map Ropp (flip bs x).
Proof. apply flip_map. intros; apply opp_if_opp. Qed.
Lemma flip_zero bs n : flip bs (repeat 0 n) = repeat 0 (Nat.min (length bs) n).
Proof. revert n. induction bs as [|b bs IH]; intros [|n]; cbn; try reflexivity. f_equal; [apply opp_if_0|apply IH]. Qed.
Lemma flip_twice bs x : (length x <= length bs)%nat -> flip bs (flip bs x) = x.
Proof. revert x. induction bs as [|b bs IH]; intros [|y x] H; cbn [length] in H; try lia; [reflexivity| |]; cbn; [reflexivity|]. f_equal; [apply opp_if_twice|apply IH; lia]. Qed.
Lemma flip_map2 bs f x y : (forall b u v, opp_if b (f u v) = f (opp_if b u) (opp_if b v)) -> flip bs (map2 f x y) = map2 f (flip bs x) (flip bs y).
Proof.
  intros H. revert x y. induction bs as [|b bs IH]; intros [|u x] [|v y]; cbn; try reflexivity.
  f_equal; [apply H|apply IH].
Qed.
Lemma fdot_flip bs x y : (length x <= length bs)%nat -> fdot (flip bs x) (flip bs y) = fdot x y.
Proof.
  revert x y. induction bs as [|b bs IH]; intros [|u x] [|v y] H; cbn [length] in H; try lia; try reflexivity.
  cbn. fold (flip bs x) (flip bs y). numR. rewrite opp_if_sq, IH by lia. reflexivity.
Qed.
Lemma fnorm_flip bs x : (length x <= length bs)%nat -> fnorm (flip bs x) = fnorm x.
Proof. intros. unfold fnorm. rewrite fdot_flip by assumption. reflexivity. Qed.

Lemma set_nth_map {A B} (f : A -> B) i v l : set_nth i (f v) (map f l) = map f (set_nth i v l).
Proof. revert i. induction l as [|x l IH]; intros [|i]; cbn; try reflexivity. f_equal. apply IH. Qed.
Lemma gather_map_ok {A B} (f : A -> B) a idx : gather (map f a) idx = bind (gather a idx) (fun l => Ok (map f l)).
Proof.
  induction idx as [|i idx IH]; cbn [gather]; [reflexivity|]. rewrite nth_error_map. destruct (nth_error a i); cbn [option_map bind]; [|reflexivity].
  rewrite IH. destruct (gather a idx); reflexivity.
Qed.
Lemma gather0_map {A B} (f : A -> B) a idx x : gather0 a idx = Ok x -> gather0 (map f a) idx = Ok (f x).
Proof. unfold gather0. rewrite gather_map_ok. destruct (gather a idx) as [[|y l]|e|]; cbn; try discriminate. intros H. injection H as ->. reflexivity. Qed.
Lemma put_map {A B} (f : A -> B) a idx v x : put a idx v = Ok x -> put (map f a) idx (f v) = Ok (map f x).
Proof.
  unfold put. rewrite map_length. destruct (forallb _ idx); [|discriminate]. intros H. injection H as <-. f_equal.
  revert a. induction idx as [|i idx IH]; intros a; cbn [fold_left]; [reflexivity|]. rewrite set_nth_map. apply IH.
Qed.
Lemma py_get_map {A B} (f : A -> B) a i x : py_get a i = Ok x -> py_get (map f a) i = Ok (f x).
Proof.
  unfold py_get. rewrite map_length. destruct (py_pos (length a) i) as [p|e|]; cbn [bind]; try discriminate.
  rewrite nth_error_map. destruct (nth_error a p); cbn; [|discriminate]. intros H. injection H as ->. reflexivity.
Qed.

Lemma nth_error_skip {A} k (l : list A) p : nth_error (skipn k l) p = nth_error l (k + p).
Proof. revert l. induction k as [|k IH]; intros [|x l]; cbn; try reflexivity; [destruct p; reflexivity|apply IH]. Qed.
Lemma nth_error_first {A} k (l : list A) p : (p < k)%nat -> nth_error (firstn k l) p = nth_error l p.
Proof. revert l p. induction k as [|k IH]; intros [|x l] [|p] H; cbn; try reflexivity; try lia. apply IH. lia. Qed.

Section Mir.
  Variable mir : v3 bool.
  Notation mirror := (mirror mir).
  Notation mirror_block := (mirror_block mir).
  Notation mirror_row := (mirror_row mir).
  Notation turned := (turned mir).

  Lemma nth_mirror_row l p : nth_error (mirror_row l) p = option_map (opp_if (turned p)) (nth_error l p).
  Proof.
    unfold SpecMirror.mirror_row. rewrite nth_flip, nth_error_map, nth_error_seq. destruct (Nat.ltb_spec p (length l)) as [H|H]; cbn [option_map].
    - destruct (nth_error l p); reflexivity.
    - rewrite (proj2 (nth_error_None l p)) by lia. reflexivity.
  Qed.
  Lemma mirror_row_length l : length (mirror_row l) = length l.
  Proof. unfold SpecMirror.mirror_row. rewrite flip_length, map_length, seq_length. lia. Qed.
  Lemma mirror_row_ext l l' : (forall p, nth_error l' p = option_map (opp_if (turned p)) (nth_error l p)) -> l' = mirror_row l.
  Proof. intros H. apply nth_error_ext. intros p. rewrite H, nth_mirror_row. reflexivity. Qed.
  Lemma turned_shift p q : (p mod 3 = 0)%nat -> turned (p + q) = turned q.
  Proof. intros H. unfold SpecMirror.turned. f_equal. rewrite Nat.add_mod, H by lia. cbn [Nat.add]. apply Nat.mod_mod. lia. Qed.
  Lemma mirror_row_app l1 l2 : (length l1 mod 3 = 0)%nat -> mirror_row (l1 ++ l2) = mirror_row l1 ++ mirror_row l2.
  Proof.
    intros H. symmetry. apply mirror_row_ext. intros p. destruct (Nat.lt_ge_cases p (length l1)) as [Hp|Hp].
    - rewrite !nth_error_app1 by (rewrite ?mirror_row_length; lia). apply nth_mirror_row.
    - rewrite !nth_error_app2 by (rewrite ?mirror_row_length; lia). rewrite mirror_row_length, nth_mirror_row.
      f_equal. f_equal. replace p with (length l1 + (p - length l1))%nat at 2 by lia. symmetry. apply turned_shift, H.
  Qed.
  Lemma mirror_row_concat rows : Forall (fun r => (length r mod 3 = 0)%nat) rows -> concat (map mirror_row rows) = mirror_row (concat rows).
  Proof. induction 1 as [|r rows H _ IH]; [reflexivity|]. cbn [map concat]. rewrite IH, mirror_row_app by exact H. reflexivity. Qed.
  Lemma mirror_row_vflat l : vflat (map mirror l) = mirror_row (vflat l).
  Proof.
    induction l as [|v l IH]; [reflexivity|]. unfold vflat in *. cbn [map flat_map]. rewrite mirror_row_app by reflexivity. rewrite IH. reflexivity.
  Qed.
  Lemma mirror_row_map f l : (forall b y, opp_if b (f y) = f (opp_if b y)) -> mirror_row (map f l) = map f (mirror_row l).
  Proof. intros H. unfold SpecMirror.mirror_row. rewrite map_length. apply flip_map, H. Qed.
  Lemma mirror_row_map2 f x y : length x = length y -> (forall b u v, opp_if b (f u v) = f (opp_if b u) (opp_if b v)) ->
    mirror_row (map2 f x y) = map2 f (mirror_row x) (mirror_row y).
  Proof.
    intros Hl H. unfold SpecMirror.mirror_row. rewrite map2_length, <- Hl, Nat.min_id. apply flip_map2, H.
  Qed.
  Lemma mirror_row_zero n : mirror_row (repeat 0 n) = repeat 0 n.
  Proof. unfold SpecMirror.mirror_row. rewrite flip_zero, map_length, seq_length, repeat_length, Nat.min_id. reflexivity. Qed.
  Lemma mirror_row_skip k l : (k mod 3 = 0)%nat -> mirror_row (skipn k l) = skipn k (mirror_row l).
  Proof.
    intros H. symmetry. apply mirror_row_ext. intros p. rewrite !nth_error_skip, nth_mirror_row, turned_shift by exact H. reflexivity.
  Qed.
  Lemma mirror_row_first k l : mirror_row (firstn k l) = firstn k (mirror_row l).
  Proof.
    symmetry. apply mirror_row_ext. intros p. destruct (Nat.lt_ge_cases p k) as [Hp|Hp].
    - rewrite !nth_error_first by exact Hp. apply nth_mirror_row.
    - rewrite !(proj2 (nth_error_None (firstn k _) p)); [reflexivity| |]; rewrite firstn_length; lia.
  Qed.

  (** Gathering components. *)
  Lemma gather_mirror l D x : gather l D = Ok x -> gather (mirror_row l) D = Ok (flip (map turned D) x).
  Proof.
    revert x. induction D as [|p D IH]; intros x H; cbn [gather] in *.
    - injection H as <-. reflexivity.
    - rewrite nth_mirror_row. destruct (nth_error l p) as [v|]; [|discriminate]. cbn [option_map].
      apply bind_ok in H. destruct H as (xs & Hx & H). rewrite (IH _ Hx). injection H as <-. reflexivity.
  Qed.
  Lemma gather_len {A} (l : list A) D x : gather l D = Ok x -> length x = length D.
  Proof. revert x. induction D as [|p D IH]; intros x H; cbn [gather] in H; [injection H as <-; reflexivity|]. destruct (nth_error l p); [|discriminate]. apply bind_ok in H. destruct H as (xs & Hx & H). injection H as <-. cbn. f_equal. auto. Qed.
  Lemma flip_unknowns rv D1 x : length x = length D1 -> flip (unknowns mir rv D1) x = flip (map turned D1) x.
  Proof. intros H. unfold unknowns. rewrite <- (app_nil_r x) at 1. rewrite flip_app by (rewrite map_length; lia). unfold flip at 2. cbn. apply app_nil_r. Qed.
  Lemma flip_unknowns_snoc rv D1 u l : length u = length D1 -> flip (unknowns mir rv D1) (u ++ [l]) = flip (unknowns mir rv D1) u ++ [opp_if rv l].
  Proof. intros H. rewrite (flip_unknowns rv D1 u H). unfold unknowns. rewrite flip_app by (rewrite map_length; lia). reflexivity. Qed.

  (** Writing components. *)
  Lemma vset_mirror v k x : (k < 3)%nat -> vset (mirror v) k (opp_if (vget mir k) x) = mirror (vset v k x).
  Proof. intros H. destruct k as [|[|[|k]]]; [reflexivity|reflexivity|reflexivity|lia]. Qed.
  Lemma put_flat1_mirror a k x : put_flat1 (map mirror a) k (opp_if (turned k) x) = map mirror (put_flat1 a k x).
  Proof.
    unfold put_flat1. rewrite nth_error_map. destruct (nth_error a (k / 3)) as [row|]; cbn [option_map]; [|reflexivity].
    unfold SpecMirror.turned. rewrite vset_mirror by (apply Nat.mod_upper_bound; lia). apply set_nth_map.
  Qed.
  Lemma scatter_mirror a D x a' : length x = length D -> scatter a D x = Ok a' ->
    scatter (map mirror a) D (flip (map turned D) x) = Ok (map mirror a').
  Proof.
    intros Hl H. unfold scatter in *. rewrite map_length. destruct (forallb _ D); [|discriminate].
    rewrite flip_len by (rewrite map_length; lia). rewrite Hl, Nat.eqb_refl in *. injection H as <-. f_equal.
    clear - Hl. revert a x Hl. induction D as [|p D IH]; intros a [|v x] Hl; try discriminate; [reflexivity|].
    unfold flip in *. cbn [map map2 combine fold_left fst snd]. rewrite put_flat1_mirror. apply IH. injection Hl; auto.
  Qed.

  (** ** Vectors *)
  Lemma mirror_add u v : mirror (vadd u v) = vadd (mirror u) (mirror v).
  Proof. unfold SpecMirror.mirror, vadd, vmap2. cbn. rewrite !opp_if_add. reflexivity. Qed.
  Lemma mirror_sub u v : mirror (vsub u v) = vsub (mirror u) (mirror v).
  Proof. unfold SpecMirror.mirror, vsub, vmap2. cbn. rewrite !opp_if_sub. reflexivity. Qed.
  Lemma mirror_neg v : mirror (vneg v) = vneg (mirror v).
  Proof. unfold SpecMirror.mirror, vneg, vmap2, vmap. cbn. rewrite !opp_if_opp. reflexivity. Qed.
  Lemma mirror_scale a v : mirror (vscale a v) = vscale a (mirror v).
  Proof. unfold SpecMirror.mirror, vscale, vmap2, vmap. cbn. rewrite !opp_if_scale. reflexivity. Qed.
  Lemma mirror_divs a v : mirror (vdivs v a) = vdivs (mirror v) a.
  Proof. unfold SpecMirror.mirror, vdivs, vmap2, vmap. cbn. rewrite !opp_if_div. reflexivity. Qed.
  Lemma mirror_dot u v : vdot (mirror u) (mirror v) = vdot u v.
  Proof. unfold SpecMirror.mirror, vdot, vmap2. cbn. rewrite !opp_if_sq. reflexivity. Qed.
  Lemma mirror_zero : mirror vzero = vzero.
  Proof. unfold SpecMirror.mirror, vzero, vmap2. cbn. rewrite !opp_if_0. reflexivity. Qed.
  Lemma block_add A B : mirror_block (madd A B) = madd (mirror_block A) (mirror_block B).
  Proof.
    unfold SpecMirror.mirror_block, madd, vmap2 at 1 2 5. cbn. rewrite !mirror_add. unfold vadd, vmap2, vmap. cbn. rewrite !opp_if_add. reflexivity.
  Qed.
  Lemma block_neg A : mirror_block (mneg A) = mneg (mirror_block A).
  Proof. unfold SpecMirror.mirror_block, mneg, vmap2, vmap at 2 5. cbn. rewrite !mirror_neg. unfold vneg, vmap. cbn. rewrite !opp_if_opp. reflexivity. Qed.
  Lemma block_zero : mirror_block mzero = mzero.
  Proof. unfold SpecMirror.mirror_block, mzero, vmap2. cbn. rewrite !mirror_zero. unfold vmap, vzero. cbn. rewrite !opp_if_0. reflexivity. Qed.

  (** ** One element *)
  Definition mirror_q (q : truss_q (F:=R)) : truss_q :=
    TrussQ (mirror (q_n q)) (q_L q) (q_l q) (q_lam q) (q_stress q) (q_dsde q) (q_A q) (q_N q) (q_state q).

  Lemma quantities_mirror XA XE UA UE U0A U0E u mat geo sve q :
    truss_quantities XA XE UA UE U0A U0E u mat geo sve = Ok q ->
    truss_quantities (mirror XA) (mirror XE) (mirror UA) (mirror UE) (mirror U0A) (mirror U0E) u mat geo sve = Ok (mirror_q q).
  Proof.
    unfold truss_quantities, vnorm. cbv zeta. rewrite <- !mirror_sub, <- !mirror_add, !mirror_dot, <- mirror_divs.
    intros H. apply bind_ok in H. destruct H as ([[s t] st] & -> & H). cbn [bind].
    apply bind_ok in H. destruct H as (A & -> & H). injection H as <-. reflexivity.
  Qed.

  Lemma KTEE_mirror q : truss_KTEE (mirror_q q) = mirror_block (truss_KTEE q).
  Proof.
    unfold truss_KTEE. cbn [mirror_q q_n q_L q_l q_dsde q_A q_N]. destruct (q_n q) as [x y z].
    set (a := (_ / _)%num). set (b := (q_N q / q_l q)%num). destruct mir as [b1 b2 b3].
    unfold SpecMirror.mirror_block, SpecMirror.mirror, madd, msub, mscale, meye, vouter, vadd, vsub, vscale, vmap, vmap2. cbn.
    destruct b1, b2, b3; cbn; repeat f_equal; ring.
  Qed.

  Lemma K_add_mirror K a b M K' : K_add K a b M = Ok K' -> K_add (map (map mirror_block) K) a b (mirror_block M) = Ok (map (map mirror_block) K').
  Proof.
    unfold K_add. rewrite nth_error_map. destruct (nth_error K a) as [row|]; [|discriminate]. cbn [option_map].
    rewrite nth_error_map. destruct (nth_error row b) as [blk|]; [|discriminate]. cbn [option_map]. intros H. injection H as <-.
    rewrite <- block_add, set_nth_map, set_nth_map. reflexivity.
  Qed.
End Mir.
