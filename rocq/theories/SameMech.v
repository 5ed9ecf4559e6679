(** * When two bars act alike: renaming, moving, turning *)
From Coq Require Import List ZArith Bool Arith Lia Reals Lra Permutation.
Import ListNotations.
From Verif Require Import Num NumR Vec Handlers Material Analysis Truss Equil ListFacts SpecMech SpecMechR EquilFacts MechFacts
  SpecState FrameFacts EvalFacts SpecSame SameFacts.

Lemma idx_map (rho : Z -> Z) labels l : NoDup labels -> In l labels ->
  (forall x y, In x labels -> In y labels -> rho x = rho y -> x = y) -> idx (rho l) (map rho labels) = idx l labels.
Proof.
  intros Hn Hi Hinj. pose proof (idx_nth labels l Hi) as Hl.
  unfold idx at 1. rewrite (positions_NoDup (rho l) (map rho labels) (idx l labels)); [reflexivity| |].
  - clear - Hn Hinj. induction Hn as [|x labels Hx Hn IH]; cbn [map]; constructor.
    + intros H. apply in_map_iff in H. destruct H as (y & E & Hy). apply Hx.
      rewrite (Hinj x y); auto; [left; auto|right; auto].
    + apply IH. intros; apply Hinj; auto; right; auto.
  - rewrite nth_error_map, Hl. reflexivity.
Qed.

Section Any.
  Context {F : Type} `{NF : Num F}.

  (** Both ends moved alike keep all differences. *)
  Lemma alike_same rho (mv : v3 F -> v3 F) (c c' : ctx F) ms b b' :
    (forall x y, vsub (mv x) (mv y) = vsub x y) ->
    truss_ok c ms -> c_labels c' = map rho (c_labels c) -> c_coords c' = map mv (c_coords c) ->
    (forall x y, In x (c_labels c) -> In y (c_labels c) -> rho x = rho y -> x = y) ->
    In b ms -> same_bar rho b b' -> alike c c' b b'.
  Proof.
    intros Hmv (Hnd & Hco & _ & _ & Hms) El Ec Hinj Hb (E1 & E2 & E3 & E4 & E5) U U0 sv q Hq LU LU0.
    destruct (Hms b Hb) as (Ha & Hb' & _).
    assert (Ia : idx (mb_a b') (c_labels c') = idx (mb_a b) (c_labels c)) by (rewrite E1, El; apply idx_map; auto).
    assert (Ib : idx (mb_b b') (c_labels c') = idx (mb_b b) (c_labels c)) by (rewrite E2, El; apply idx_map; auto).
    exists q. split.
    - unfold member_q, truss_quantities in *. rewrite Ia, Ib, Ec, E3, E4, E5.
      assert (N : forall l, In l (c_labels c) -> nth (idx l (c_labels c)) (map mv (c_coords c)) vzero = mv (nth (idx l (c_labels c)) (c_coords c) vzero)).
      { intros l Hl. rewrite (nth_indep _ vzero (mv vzero)); [apply map_nth|]. rewrite map_length, Hco. apply idx_lt, Hl. }
      rewrite !N, Hmv by assumption. exact Hq.
    - repeat (split; [reflexivity|]). split; intros; unfold r_member, k_member; cbn [fst snd]; rewrite Ia, Ib; reflexivity.
  Qed.
End Any.

(** ** Additions into arrays commute *)
Section Add.
  Context {A B : Type} (add : A -> B -> A) (d : A).
  Hypothesis Hadd : forall x v w, add (add x v) w = add (add x w) v.

  Definition gadd (l : list A) (i : nat) (v : B) : list A := set_nth i (add (nth i l d) v) l.

  Lemma gadd_comm l i v j w : gadd (gadd l i v) j w = gadd (gadd l j w) i v.
  Proof.
    apply nth_error_ext. intros k. unfold gadd.
    rewrite !nth_error_set_nth, !set_nth_length.
    assert (N : forall a b (x : A), nth a (set_nth b x l) d = if (a =? b) && (b <? length l) then x else nth a l d).
    { intros a b x. pose proof (nth_error_set_nth b a x l) as H.
      destruct ((a =? b) && (b <? length l)); [apply nth_error_nth; exact H|].
      destruct (nth_error l a) eqn:E; [rewrite (nth_error_nth _ _ d H), (nth_error_nth _ _ d E); reflexivity|].
      apply nth_error_None in H. rewrite nth_overflow by exact H. apply nth_error_None in E. rewrite nth_overflow by exact E. reflexivity. }
    rewrite !N. 
    destruct (Nat.eqb_spec k j), (Nat.eqb_spec k i); subst; rewrite ?Nat.eqb_refl; cbn [andb]; auto.
    - destruct (i <? length l) eqn:E; cbn [andb]; auto. f_equal. apply Hadd.
    - destruct (j <? length l) eqn:E; cbn [andb]; auto. destruct (Nat.eqb_spec j i); [congruence|]. cbn [andb]. reflexivity.
    - destruct (i <? length l) eqn:E; cbn [andb]; auto. destruct (Nat.eqb_spec i j); [congruence|]. cbn [andb]. reflexivity.
  Qed.
End Add.

Lemma madd_comm3 (x v w : m3 R) : madd (madd x v) w = madd (madd x w) v.
Proof. veq. Qed.
Lemma vadd_comm3 (x v w : v3 R) : vadd (vadd x v) w = vadd (vadd x w) v.
Proof. veq. Qed.

Lemma radd_comm (r : list (v3 R)) i v j w : radd (radd r i v) j w = radd (radd r j w) i v.
Proof. apply (gadd_comm vadd vzero vadd_comm3). Qed.

Lemma kadd_comm (K : list (list (m3 R))) a b M a' b' M' : kadd (kadd K a b M) a' b' M' = kadd (kadd K a' b' M') a b M.
Proof.
  pose (add := fun row (bM : nat * m3 R) => gadd madd mzero row (fst bM) (snd bM)).
  apply (gadd_comm add [] (fun x v w => gadd_comm madd mzero madd_comm3 x (fst v) (snd v) (fst w) (snd w)) K a (b, M) a' (b', M')).
Qed.

Lemma order_free_R (c : ctx R) ms p : order_free c ms p.
Proof.
  right. split.
  - intros r x y. unfold r_member.
    generalize (idx (mb_a (fst x)) (c_labels c)), (idx (mb_b (fst x)) (c_labels c)), (idx (mb_a (fst y)) (c_labels c)), (idx (mb_b (fst y)) (c_labels c)).
    intros i j k l. rewrite (radd_comm _ j _ k), (radd_comm _ i _ k), (radd_comm _ j _ l), (radd_comm _ i _ l). reflexivity.
  - intros K x y. unfold k_member. cbv zeta.
    generalize (idx (mb_a (fst x)) (c_labels c)), (idx (mb_b (fst x)) (c_labels c)), (idx (mb_a (fst y)) (c_labels c)), (idx (mb_b (fst y)) (c_labels c)).
    generalize (truss_KTEE (snd x)), (truss_KTEE (snd y)). intros M N i j k l.
    assert (Q : forall K a b P, kadd (kadd (kadd (kadd (kadd K i i M) i j (mneg M)) j i (mneg M)) j j M) a b P
      = kadd (kadd (kadd (kadd (kadd K a b P) i i M) i j (mneg M)) j i (mneg M)) j j M).
    { intros K0 a b P. rewrite (kadd_comm _ j j _ a b), (kadd_comm _ j i _ a b), (kadd_comm _ i j _ a b), (kadd_comm _ i i _ a b). reflexivity. }
    rewrite !Q. reflexivity.
Qed.

(** ** A turned bar *)
Lemma vsub_swap (x y : v3 R) : vsub x y = vneg (vsub y x).
Proof. veq. Qed.
Lemma vadd_neg (x y : v3 R) : vadd (vneg x) (vneg y) = vneg (vadd x y).
Proof. veq. Qed.
Lemma vdot_neg (x : v3 R) : vdot (vneg x) (vneg x) = vdot x x.
Proof. vsolve. ring. Qed.
Lemma vdivs_neg (x : v3 R) s : vdivs (vneg x) s = vneg (vdivs x s).
Proof. vsolve. f_equal; unfold Rdiv; ring. Qed.
Lemma vneg_neg (x : v3 R) : vneg (vneg x) = x.
Proof. veq. Qed.
Lemma vouter_neg (x : v3 R) : vouter (vneg x) (vneg x) = vouter x x.
Proof. veq. Qed.

Lemma quantities_turned (XA XE UA UE U0A U0E : v3 R) u mat geo sv q :
  truss_quantities XA XE UA UE U0A U0E u mat geo sv = Ok q ->
  truss_quantities XE XA UE UA U0E U0A u mat geo sv =
    Ok (TrussQ (vneg (q_n q)) (q_L q) (q_l q) (q_lam q) (q_stress q) (q_dsde q) (q_A q) (q_N q) (q_state q)).
Proof.
  unfold truss_quantities. rewrite (vsub_swap XA XE), (vsub_swap UA UE), (vsub_swap U0A U0E), !vadd_neg.
  unfold vnorm. rewrite !vdot_neg, vdivs_neg. intros H.
  apply bind_ok in H. destruct H as ([[s d] sv'] & -> & H). cbn [bind].
  apply bind_ok in H. destruct H as (A & -> & H). injection H as <-. reflexivity.
Qed.

Lemma alike_turned rho t (c c' : ctx R) ms b b' :
  truss_ok c ms -> c_labels c' = map rho (c_labels c) -> c_coords c' = map (fun x => vadd x t) (c_coords c) ->
  (forall x y, In x (c_labels c) -> In y (c_labels c) -> rho x = rho y -> x = y) ->
  In b ms -> turned_bar rho b b' -> alike c c' b b'.
Proof.
  intros Hok El Ec Hinj Hb (E1 & E2 & E3 & E4 & E5).
  pose proof (fun Hmv => alike_same rho (fun x => vadd x t) c c' ms b
    (Mb (mb_label b') (rho (mb_a b)) (rho (mb_b b)) (mb_law b) (mb_mat b) (mb_geo b)) Hmv Hok El Ec Hinj Hb) as Hs.
  intros U U0 sv q Hq LU LU0.
  destruct (Hs ltac:(intros; veq) ltac:(repeat split; reflexivity) U U0 sv q Hq LU LU0)
    as (q1 & Hq1 & F1 & F2 & F3 & F4 & HR & HK). clear Hs.
  unfold member_q in Hq1. cbn [mb_a mb_b mb_law mb_mat mb_geo] in Hq1. rewrite <- E1, <- E2, <- E3, <- E4, <- E5 in Hq1.
  eexists. split; [apply quantities_turned; exact Hq1|]. cbn [q_lam q_stress q_N q_state].
  do 4 (split; [assumption|]). split.
  - intros r. rewrite <- HR. unfold r_member. cbn [fst snd mb_a mb_b q_N q_n].
    rewrite E1, E2, radd_comm, vneg_neg. reflexivity.
  - intros K. rewrite <- HK. unfold k_member. cbn [fst snd mb_a mb_b].
    assert (EK : truss_KTEE (TrussQ (vneg (q_n q1)) (q_L q1) (q_l q1) (q_lam q1) (q_stress q1) (q_dsde q1) (q_A q1) (q_N q1) (q_state q1)) = truss_KTEE q1).
    { unfold truss_KTEE. cbn. rewrite vouter_neg. reflexivity. }
    rewrite EK, E1, E2. generalize (truss_KTEE q1), (idx (rho (mb_a b)) (c_labels c')), (idx (rho (mb_b b)) (c_labels c')).
    intros M i j. cbv zeta.
    rewrite (kadd_comm _ i j _ i i), (kadd_comm _ j i _ i i), (kadd_comm _ j j _ i i).
    rewrite (kadd_comm _ j i _ i j), (kadd_comm _ j j _ i j), (kadd_comm _ j j _ j i). reflexivity.
Qed.
