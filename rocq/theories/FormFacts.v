(** * The stiffness as a quadratic form (R) *)
From Coq Require Import List ZArith Bool Arith Lia Reals Lra Psatz Permutation.
From Coquelicot Require Import Coquelicot.
Import ListNotations.
From Verif Require Import Num NumR Vec Handlers Material Analysis Truss Equil Solver ListFacts SpecMaterial SpecMech SpecMechR SpecEnergy SpecForm.
From Verif Require Import MaterialFacts EquilFacts MechFacts StiffFacts TangentFacts EnergyFacts.
Local Open Scope R_scope.

(** ** Sums *)
Lemma rsum_app l1 l2 : rsum (l1 ++ l2) = rsum l1 + rsum l2.
Proof.
  induction l1 as [|a l1 IH].
  - change (rsum l2 = 0 + rsum l2). ring.
  - change (a + rsum (l1 ++ l2) = a + rsum l1 + rsum l2). rewrite IH. ring.
Qed.
Lemma rsum_perm l1 l2 : Permutation l1 l2 -> rsum l1 = rsum l2.
Proof.
  induction 1 as [|x l l' H IH|x y l|l1 l2 l3 H1 IH1 H2 IH2]; [reflexivity| | |congruence].
  - change (x + rsum l = x + rsum l'). rewrite IH. reflexivity.
  - change (y + (x + rsum l) = x + (y + rsum l)). ring.
Qed.
Lemma rsum_ext {A} (f g : A -> R) l : (forall x, In x l -> f x = g x) -> rsum (map f l) = rsum (map g l).
Proof. intros H. f_equal. apply map_ext_in. exact H. Qed.
Lemma rsum_scal {A} (f : A -> R) s l : rsum (map (fun x => s * f x) l) = s * rsum (map f l).
Proof. induction l as [|a l IH]; cbn [map rsum fold_right]; [ring|]. fold (rsum (map (fun x => s * f x) l)). fold (rsum (map f l)). rewrite IH. ring. Qed.
Lemma rsum_plus {A} (f g : A -> R) l : rsum (map (fun x => f x + g x) l) = rsum (map f l) + rsum (map g l).
Proof. induction l as [|a l IH]; cbn [map rsum fold_right]; [ring|]. fold (rsum (map (fun x => f x + g x) l)). fold (rsum (map f l)). fold (rsum (map g l)). rewrite IH. ring. Qed.
Lemma rsum_zero {A} (f : A -> R) l : (forall x, In x l -> f x = 0) -> rsum (map f l) = 0.
Proof.
  induction l as [|a l IH]; intros H; cbn [map rsum fold_right]; [reflexivity|]. fold (rsum (map f l)).
  rewrite (H a (or_introl eq_refl)), IH; [ring|]. intros; apply H; right; auto.
Qed.
Lemma rsum_swap {A B} (f : A -> B -> R) la lb :
  rsum (map (fun a => rsum (map (f a) lb)) la) = rsum (map (fun b => rsum (map (fun a => f a b) la)) lb).
Proof.
  induction la as [|a la IH]; cbn [map rsum fold_right].
  - symmetry. apply rsum_zero. reflexivity.
  - fold (rsum (map (fun a => rsum (map (f a) lb)) la)). fold (rsum (map (f a) lb)). rewrite IH, <- rsum_plus. reflexivity.
Qed.
Lemma rsum_nonneg {A} (f : A -> R) l : (forall x, In x l -> 0 <= f x) -> 0 <= rsum (map f l).
Proof.
  induction l as [|a l IH]; intros H; cbn [map rsum fold_right]; [lra|]. fold (rsum (map f l)).
  pose proof (H a (or_introl eq_refl)). assert (0 <= rsum (map f l)) by (apply IH; intros; apply H; right; auto). lra.
Qed.
Lemma rsum_nonneg_0 {A} (f : A -> R) l : (forall x, In x l -> 0 <= f x) -> rsum (map f l) = 0 -> forall x, In x l -> f x = 0.
Proof.
  induction l as [|a l IH]; intros H E x Hx; [destruct Hx|]. cbn [map rsum fold_right] in E. fold (rsum (map f l)) in E.
  pose proof (H a (or_introl eq_refl)). assert (0 <= rsum (map f l)) by (apply rsum_nonneg; intros; apply H; right; auto).
  destruct Hx as [<-|Hx]; [lra|]. apply IH; auto; [intros; apply H; right; auto|lra].
Qed.
Lemma rsum_support (f : nat -> R) dof : NoDup dof -> forall L, NoDup L -> incl dof L -> (forall p, In p L -> ~ In p dof -> f p = 0) ->
  rsum (map f L) = rsum (map f dof).
Proof.
  intros Hn L HL Hi H0.
  assert (P : Permutation (filter (fun p => if in_dec Nat.eq_dec p dof then true else false) L) dof).
  { apply NoDup_Permutation; [apply NoDup_filter; exact HL|exact Hn|]. intros p. rewrite filter_In.
    destruct (in_dec Nat.eq_dec p dof); intuition; discriminate. }
  rewrite <- (rsum_perm _ _ (Permutation_map f P)). clear P Hi HL. induction L as [|p L IH]; [reflexivity|].
  cbn [map filter rsum fold_right]. fold (rsum (map f L)). destruct (in_dec Nat.eq_dec p dof) as [i|n].
  - cbn [map rsum fold_right]. f_equal. apply IH. intros; apply H0; auto; right; auto.
  - rewrite (H0 p (or_introl eq_refl) n), Rplus_0_l. apply IH. intros; apply H0; auto; right; auto.
Qed.
Lemma rsum_index {A} (F : A -> R) l d : rsum (map F l) = rsum (map (fun i => F (nth i l d)) (seq 0 (length l))).
Proof.
  induction l as [|a l IH]; [reflexivity|]. cbn [length seq map rsum fold_right nth].
  fold (rsum (map F l)). f_equal. rewrite IH. rewrite <- seq_shift, map_map. reflexivity.
Qed.
Lemma rsum_thirds f n : rsum (map f (seq 0 (3 * n))) = rsum (map (fun i => f (3 * i)%nat + f (3 * i + 1)%nat + f (3 * i + 2)%nat) (seq 0 n)).
Proof.
  induction n as [|n IH]; [reflexivity|]. replace (3 * S n)%nat with (3 * n + 3)%nat by lia.
  rewrite seq_app, map_app, rsum_app, IH. rewrite (seq_S n 0), map_app, rsum_app. f_equal. rewrite !Nat.add_0_l. cbn [seq map rsum fold_right].
  replace (S (S (3 * n))) with (3 * n + 2)%nat by lia. replace (S (3 * n)) with (3 * n + 1)%nat by lia. ring.
Qed.
Lemma rsum_double (f : Z -> R) labels a b : NoDup labels -> In a labels -> In b labels -> a <> b ->
  (forall l, l <> a -> l <> b -> f l = 0) -> rsum (map f labels) = f a + f b.
Proof.
  intros Hn Ha Hb Hab H0.
  pose proof (vsum_double (fun l => V3 (f l) 0 0) labels a b Hn Ha Hb Hab) as E.
  assert (E' : vsum (map (fun l => V3 (f l) 0 0) labels) = vadd (V3 (f a) 0 0) (V3 (f b) 0 0)).
  { apply E. intros l H1 H2. rewrite H0 by auto. reflexivity. }
  apply (f_equal (fun v => vget v 0)) in E'. rewrite vget_vsum, map_map in E'. exact E'.
Qed.
Lemma vdot_vsum (v : v3 R) l : vdot v (vsum l) = rsum (map (vdot v) l).
Proof.
  induction l as [|a l IH]; cbn [vsum map rsum fold_right].
  - unfold vdot. cbn. ring.
  - fold (vsum l). fold (rsum (map (vdot v) l)). rewrite <- IH. generalize (vsum l). intros b. unfold vdot, vadd, vmap2. cbn. ring.
Qed.

(** ** One member *)
Definition delta (v : Z -> v3 R) (m : member R) : v3 R := vsub (v (mb_b m)) (v (mb_a m)).

Lemma KTEE_form (q : truss_q (F:=R)) d : vdot d (mvec (truss_KTEE q) d) =
  q_dsde q * q_A q / q_L q * (vdot (q_n q) d) ^ 2 + q_N q / q_l q * (vdot d d - (vdot (q_n q) d) ^ 2).
Proof.
  unfold truss_KTEE. generalize (q_n q) as n. numR.
  generalize (q_dsde q * q_A q / q_L q) as a. generalize (q_N q / q_l q) as b. intros b a [n1 n2 n3]. destruct d as [d1 d2 d3].
  unfold mvec, madd, mscale, msub, meye, vouter, vscale, vadd, vsub, vmap, vmap2, vdot. cbn [vx vy vz]. numR. ring.
Qed.

Lemma block_times c ms K (qs : list (truss_q (F:=R))) v l :
  truss_ok c ms -> In l (c_labels c) ->
  (forall l l', In l (c_labels c) -> In l' (c_labels c) -> K_block c K l l' =
     msum (map (fun mq => mscale (sg (fst mq) l * sg (fst mq) l') (truss_KTEE (snd mq))) (combine ms qs))) ->
  vsum (map (fun l' => mvec (K_block c K l l') (v l')) (c_labels c)) =
  vsum (map (fun mq => vscale (sg (fst mq) l) (mvec (truss_KTEE (snd mq)) (delta v (fst mq)))) (combine ms qs)).
Proof.
  intros Hok Hl Hb. pose proof Hok as (Hnd & _ & _ & _ & Hnodes).
  rewrite (vsum_map_ext _ (fun l' => vsum (map (fun mq => vscale (sg (fst mq) l * sg (fst mq) l') (mvec (truss_KTEE (snd mq)) (v l'))) (combine ms qs)))).
  2:{ intros l' Hl'. rewrite Hb, mvec_msum, map_map by auto. apply vsum_map_ext. intros mq _. apply mvec_mscale. }
  rewrite vsum_swap. apply vsum_map_ext. intros [m q] Hx. cbn [fst snd].
  assert (Hm : In m ms) by (apply in_combine_l in Hx; exact Hx).
  destruct (Hnodes m Hm) as (Ha & Hb' & Hab).
  rewrite (vsum_double _ _ (mb_a m) (mb_b m)); auto.
  - unfold sg at 2 4. rewrite !Z.eqb_refl. destruct (Z.eqb_spec (mb_a m) (mb_b m)); [contradiction|]. unfold delta.
    generalize (truss_KTEE q). generalize (v (mb_a m)). generalize (v (mb_b m)). veq.
  - intros x H1 H2. unfold sg at 2. destruct (Z.eqb_spec x (mb_b m)); [contradiction|].
    destruct (Z.eqb_spec x (mb_a m)); [contradiction|]. generalize (mvec (truss_KTEE q) (v x)). veq.
Qed.

Lemma blocks c ms u an an' Kred : truss_ok c ms -> sizes_ok c ms an -> stiffness c u an = Ok (an', Kred) ->
  exists qs, quants c (a_U an') (a_U0 an') (state_row c an) 0 ms qs /\ kdims (length (c_labels c)) (a_K an') /\
    select2 (flat_K (a_K an')) (a_DOF1 an) = Ok Kred /\ length (a_U an') = length (c_labels c) /\
    (forall l l', In l (c_labels c) -> In l' (c_labels c) -> K_block c (a_K an') l l' =
     msum (map (fun mq => mscale (sg (fst mq) l * sg (fst mq) l') (truss_KTEE (snd mq))) (combine ms qs))).
Proof.
  intros Hok Hsz H.
  destruct (stiffness_inv _ _ _ _ _ _ Hok Hsz H) as (an1 & u' & lam & qs & Hp & Hq & E & Hs & HK & He).
  exists qs. split; [exact Hq|]. split; [exact HK|]. split; [exact Hs|]. split.
  - subst an'. cbn [a_U set_Kred]. pose proof (loop_frame StK c u' lam false (zipk 0 ms qs) an1) as Hf. cbn zeta in Hf. destruct Hf as (-> & _).
    pose proof (prepare_sizes _ _ _ _ _ _ _ _ _ Hsz Hp) as Hsz1. apply Hsz1.
  - intros. rewrite K_block_kent by (auto; apply Hok). apply He; auto.
Qed.

Lemma tangent_at_ok u e de mat row s t st : umat (F:=R) u e de mat row = Ok (s, t, st) ->
  tangent_at u mat row e = t /\ stress_at u mat row e = s.
Proof. intros H. unfold tangent_at, stress_at. rewrite (umat_de u e 0 de), H. auto. Qed.

Lemma quant_form c ms an an' u Kred qs v k m q : truss_ok c ms ->  sizes_ok c ms an -> stiffness c u an = Ok (an', Kred) ->
  quants c (a_U an') (a_U0 an') (state_row c an) 0 ms qs -> length (a_U an') = length (c_labels c) ->
  nth_error ms k = Some m -> nth_error qs k = Some q ->
  vdot (delta v m) (mvec (truss_KTEE q) (delta v m)) = member_form c an (a_U an') v (k, m) /\
  q_n q = direction c (a_U an') m /\ q_N q = force_of c an (a_U an') k m /\ q_l q = len (axis c (a_U an') m).
Proof.
  intros Hok Hsz H Hq HlU Em Eq.
  destruct (quants_nth _ _ _ _ _ _ _ Hq _ _ Em) as (q1 & Hq1 & Hmq). rewrite Eq in Hq1. injection Hq1 as <-.
  assert (Hm : In m ms) by (eapply nth_error_In; eauto).
  destruct (member_q_inv c ms (a_U an') _ _ _ _ Hok Hm HlU Hmq) as (Qn & Ql & QL & Qll & de & Hum & HA & HN).
  rewrite Nat.add_0_l in Hum. destruct (tangent_at_ok _ _ _ _ _ _ _ _ Hum) as [Ht Hs].
  assert (HAq : nth 0 (mb_geo m) 0 = q_A q) by (unfold item in HA; destruct (mb_geo m); [discriminate|injection HA as ->; reflexivity]).
  assert (HF : q_N q = force_of c an (a_U an') k m) by (unfold force_of; rewrite HN, HAq, Hs; numR; ring).
  split; [|auto]. rewrite KTEE_form. unfold member_form. cbn [fst snd]. fold (delta v m). rewrite <- HF. unfold axial_of. rewrite HAq, Ht, Qn, QL, Qll.
  numR. rewrite (Rmult_comm (q_dsde q)). reflexivity.
Qed.

Lemma full_form_members c ms u an an' Kred v :
  truss_ok c ms -> sizes_ok c ms an -> stiffness c u an = Ok (an', Kred) ->
  full_form c (a_K an') v = rsum (map (member_form c an (a_U an') v) (combine (seq 0 (length ms)) ms)).
Proof.
  intros Hok Hsz H. destruct (blocks _ _ _ _ _ _ Hok Hsz H) as (qs & Hq & HK & _ & HlU & Hb).
  pose proof Hok as (Hnd & _ & _ & _ & Hnodes).
  assert (Hlq : length qs = length ms) by (eapply quants_length; eauto).
  unfold full_form.
  rewrite (rsum_ext _ (fun l => rsum (map (fun mq => sg (fst mq) l * vdot (v l) (mvec (truss_KTEE (snd mq)) (delta v (fst mq)))) (combine ms qs)))).
  2:{ intros l Hl. rewrite <- (map_map (fun l' => mvec (K_block c (a_K an') l l') (v l')) (vdot (v l))), <- vdot_vsum.
      rewrite (block_times c ms _ qs v l Hok Hl Hb), vdot_vsum, map_map. apply rsum_ext. intros mq _.
      generalize (mvec (truss_KTEE (snd mq)) (delta v (fst mq))). intros [a b d]. destruct (v l) as [x y z]. unfold vdot, vscale, vmap. cbn [vx vy vz]. numR. ring. }
  rewrite rsum_swap. rewrite (seq_zipk ms qs Hlq), map_map. unfold zipk.
  rewrite <- (map_combine_snd (A:=nat) _ (seq 0 (length ms)) (combine ms qs)) by (rewrite seq_length, combine_length; lia).
  apply rsum_ext. intros [k [m q]] Hin. cbn [fst snd]. fold (zipk 0 ms qs) in Hin.
  apply In_nth_error in Hin. destruct Hin as [k' Hk']. rewrite nth_error_zipk in Hk' by exact Hlq.
  destruct (nth_error ms k') as [m'|] eqn:Em; [|discriminate].
  destruct (nth_error qs k') as [q'|] eqn:Eqq; [|discriminate]. injection Hk' as -> -> ->.
  destruct (Hnodes m ltac:(eapply nth_error_In; eauto)) as (Ha & Hb' & Hab).
  rewrite (rsum_double _ _ (mb_a m) (mb_b m)); auto.
  - destruct (quant_form _ _ _ _ _ _ _ v _ _ _ Hok Hsz H Hq HlU Em Eqq) as (<- & _).
    unfold sg. rewrite !Z.eqb_refl. destruct (Z.eqb_spec (mb_a m) (mb_b m)); [contradiction|].
    generalize (mvec (truss_KTEE q) (delta v m)). intros [x y z]. unfold delta. destruct (v (mb_a m)), (v (mb_b m)).
    unfold vdot, vsub, vmap2. cbn [Vec.vx Vec.vy Vec.vz]. numR. ring.
  - intros x H1 H2. unfold sg. destruct (Z.eqb_spec x (mb_b m)); [contradiction|].
    destruct (Z.eqb_spec x (mb_a m)); [contradiction|]. ring.
Qed.

(** ** The reduced matrix *)
Lemma vdot_mvec (a b : v3 R) M : vdot a (mvec M b) =
  vget a 0 * (vget (vget M 0) 0 * vget b 0 + vget (vget M 0) 1 * vget b 1 + vget (vget M 0) 2 * vget b 2) +
  vget a 1 * (vget (vget M 1) 0 * vget b 0 + vget (vget M 1) 1 * vget b 1 + vget (vget M 1) 2 * vget b 2) +
  vget a 2 * (vget (vget M 2) 0 * vget b 0 + vget (vget M 2) 1 * vget b 1 + vget (vget M 2) 2 * vget b 2).
Proof. destruct a, b, M as [[] [] []]. unfold vdot, mvec, vmap, vdot. cbn [vget Vec.vx Vec.vy Vec.vz]. numR. ring. Qed.

Lemma div3 i d : (d < 3)%nat -> ((3 * i + d) / 3 = i /\ (3 * i + d) mod 3 = d)%nat.
Proof.
  intros Hd. replace (3 * i + d)%nat with (d + i * 3)%nat by lia. split.
  - rewrite Nat.div_add, Nat.div_small by lia. lia.
  - rewrite Nat.mod_add, Nat.mod_small by lia. lia.
Qed.

Lemma reduced_full c ms u an an' Kred x v :
  truss_ok c ms -> sizes_ok c ms an -> stiffness c u an = Ok (an', Kred) -> length x = c_ndof1 c -> spreads c an x v ->
  reduced_form Kred x = full_form c (a_K an') v.
Proof.
  intros Hok Hsz H Hx [Hv1 Hv0]. destruct (blocks _ _ _ _ _ _ Hok Hsz H) as (qs & Hq & HK & Hs & HlU & Hb).
  pose proof Hok as (Hnd & _). pose proof Hsz as (_ & _ & _ & _ & _ & _ & _ & _ & HD & HD' & Hn & _).
  set (N := length (c_labels c)) in *. set (dof := a_DOF1 an) in *.
  set (lab := fun p => nth (p / 3) (c_labels c) 0%Z). set (w := fun p => vget (v (lab p)) (p mod 3)).
  set (kf := fun p q => vget (vget (K_block c (a_K an') (lab p) (lab q)) (p mod 3)) (q mod 3)).
  assert (Hlab : forall p, (p < 3 * N)%nat -> nth_error (c_labels c) (p / 3) = Some (lab p)).
  { intros p Hp. apply nth_nth_error. apply Nat.div_lt_upper_bound; unfold N in Hp; lia. }
  (* the full form over flat components *)
  assert (Hfull : full_form c (a_K an') v = rsum (map (fun p => w p * rsum (map (fun q => kf p q * w q) (seq 0 (3 * N)))) (seq 0 (3 * N)))).
  { unfold full_form. rewrite (rsum_index _ (c_labels c) 0%Z). fold N. rewrite rsum_thirds. apply rsum_ext. intros i _.
    rewrite (rsum_index _ (c_labels c) 0%Z). fold N. rewrite !rsum_thirds.
    rewrite <- !rsum_scal, <- !rsum_plus. apply rsum_ext. intros i' _.
    unfold w, kf, lab. replace (3 * i)%nat with (3 * i + 0)%nat by lia. replace (3 * i')%nat with (3 * i' + 0)%nat by lia.
    rewrite !Nat.add_0_r. replace (3 * i)%nat with (3 * i + 0)%nat by lia. replace (3 * i')%nat with (3 * i' + 0)%nat by lia.
    rewrite !(proj1 (div3 i 0 ltac:(lia))), !(proj2 (div3 i 0 ltac:(lia))), !(proj1 (div3 i' 0 ltac:(lia))), !(proj2 (div3 i' 0 ltac:(lia))).
    rewrite <- !Nat.add_assoc. cbn [Nat.add].
    rewrite !(proj1 (div3 i 1 ltac:(lia))), !(proj2 (div3 i 1 ltac:(lia))), !(proj1 (div3 i' 1 ltac:(lia))), !(proj2 (div3 i' 1 ltac:(lia))).
    rewrite !(proj1 (div3 i 2 ltac:(lia))), !(proj2 (div3 i 2 ltac:(lia))), !(proj1 (div3 i' 2 ltac:(lia))), !(proj2 (div3 i' 2 ltac:(lia))).
    rewrite vdot_mvec. ring. }
  rewrite Hfull.
  assert (Hincl : incl dof (seq 0 (3 * N))) by (intros p Hp; apply in_seq; specialize (HD' p Hp); lia).
  assert (Hw0 : forall p, In p (seq 0 (3 * N)) -> ~ In p dof -> w p = 0).
  { intros p Hp Hnp. apply in_seq in Hp. unfold w. apply Hv0; auto. apply Hlab. lia. }
  rewrite (rsum_support _ dof HD (seq 0 (3 * N)) (seq_NoDup _ _) Hincl) by (intros p Hp Hnp; rewrite (Hw0 p Hp Hnp); ring).
  rewrite (rsum_index _ dof 0%nat). unfold reduced_form, row_times. rewrite Hx, Hn. fold dof.
  destruct (select2_ent _ _ _ Hs) as (_ & Hse & _).
  assert (Hxw : forall i, (i < length dof)%nat -> w (nth i dof 0%nat) = nth i x 0).
  { intros i Hi. pose proof (nth_nth_error dof i 0%nat Hi) as Ei. unfold w. apply Hv1; [exact Ei|].
    apply Hlab. apply HD'. eapply nth_error_In; eauto. }
  apply rsum_ext. intros i Hi. apply in_seq in Hi. rewrite Hxw by lia. f_equal.
  rewrite (rsum_support _ dof HD (seq 0 (3 * N)) (seq_NoDup _ _) Hincl) by (intros p Hp Hnp; rewrite (Hw0 p Hp Hnp); ring).
  rewrite (rsum_index _ dof 0%nat). apply rsum_ext. intros j Hj. apply in_seq in Hj. rewrite Hxw by lia. f_equal.
  pose proof (nth_nth_error dof i 0%nat ltac:(lia)) as Ei. pose proof (nth_nth_error dof j 0%nat ltac:(lia)) as Ej.
  set (p := nth i dof 0%nat) in *. set (q := nth j dof 0%nat) in *.
  assert (Hp3 : (p < 3 * N)%nat) by (apply HD'; eapply nth_error_In; eauto).
  assert (Hq3 : (q < 3 * N)%nat) by (apply HD'; eapply nth_error_In; eauto).
  rewrite (Hse _ _ _ _ Ei Ej), (flat_K_ent N) by auto. unfold kf.
  pose proof (Hlab p Hp3) as Lp. pose proof (Hlab q Hq3) as Lq.
  rewrite K_block_kent by (auto; eapply nth_error_In; eauto).
  rewrite (idx_of_nth _ _ _ Hnd Lp), (idx_of_nth _ _ _ Hnd Lq). reflexivity.
Qed.

(** ** Tension *)
Lemma cauchy (n d : v3 R) : vdot n n <= 1 -> 0 <= vdot d d - (vdot n d) ^ 2.
Proof.
  destruct n as [a b e], d as [x y z]. unfold vdot. cbn [Vec.vx Vec.vy Vec.vz]. numR. intros H.
  assert (L : (a * x + b * y + e * z) ^ 2 <= (a * a + b * b + e * e) * (x * x + y * y + z * z)).
  { assert (0 <= (a * y - b * x) ^ 2 + (a * z - e * x) ^ 2 + (b * z - e * y) ^ 2) by (pose proof (pow2_ge_0 (a * y - b * x)); pose proof (pow2_ge_0 (a * z - e * x)); pose proof (pow2_ge_0 (b * z - e * y)); lra). nra. }
  assert (0 <= x * x + y * y + z * z) by nra. nra.
Qed.

Lemma len_sq v : len v * len v = vdot v v.
Proof. unfold len, vdot. numR. apply sqrt_sqrt. nra. Qed.

Lemma direction_unit c U m : len (axis c U m) <> 0 -> vdot (direction c U m) (direction c U m) = 1.
Proof.
  intros H. unfold direction. pose proof (len_sq (axis c U m)) as E. destruct (axis c U m) as [a b d] eqn:Ea.
  rewrite <- Ea in *. set (ll := len (axis c U m)) in *. rewrite Ea in *.
  unfold vdot, vscale, vmap in *. cbn [Vec.vx Vec.vy Vec.vz] in *. numR.
  replace (/ ll * a * (/ ll * a) + / ll * b * (/ ll * b) + / ll * d * (/ ll * d)) with (/ ll * / ll * (a * a + b * b + d * d)) by ring.
  rewrite <- E. field. exact H.
Qed.

Lemma len_pos' v : len v <> 0 -> 0 < len v.
Proof. intros H. assert (0 <= len v) by (unfold len; apply sqrt_pos). lra. Qed.

Lemma member_form_pos c an U v k m : len (axis0 c m) <> 0 -> len (axis c U m) <> 0 ->
  0 <= axial_of c an U k m -> 0 <= force_of c an U k m -> 0 <= member_form c an U v (k, m).
Proof.
  intros H0 H1 HA HF. apply len_pos' in H0. pose proof (len_pos' _ H1) as H1'. unfold member_form. cbn [fst snd].
  set (d := vsub _ _). pose proof (cauchy (direction c U m) d ltac:(rewrite direction_unit by exact H1; lra)).
  assert (0 <= axial_of c an U k m / len (axis0 c m)) by (apply Rmult_le_pos; [exact HA|left; apply Rinv_0_lt_compat; exact H0]).
  assert (0 <= force_of c an U k m / len (axis c U m)) by (apply Rmult_le_pos; [exact HF|left; apply Rinv_0_lt_compat; exact H1']).
  pose proof (pow2_ge_0 (vdot (direction c U m) d)). nra.
Qed.

Lemma member_form_0 c an U v k m : len (axis0 c m) <> 0 -> len (axis c U m) <> 0 ->
  0 < axial_of c an U k m -> 0 < force_of c an U k m -> member_form c an U v (k, m) = 0 -> v (mb_b m) = v (mb_a m).
Proof.
  intros H0 H1 HA HF. apply len_pos' in H0. pose proof (len_pos' _ H1) as H1'. unfold member_form. cbn [fst snd].
  set (d := vsub _ _). pose proof (cauchy (direction c U m) d ltac:(rewrite direction_unit by exact H1; lra)) as Hc.
  assert (P1 : 0 < axial_of c an U k m / len (axis0 c m)) by (apply Rdiv_lt_0_compat; auto).
  assert (P2 : 0 < force_of c an U k m / len (axis c U m)) by (apply Rdiv_lt_0_compat; auto).
  pose proof (pow2_ge_0 (vdot (direction c U m) d)) as P3. set (s := (vdot (direction c U m) d) ^ 2) in *. intros E.
  assert (s = 0) by nra. assert (Hd : vdot d d = 0) by nra.
  unfold d in Hd. destruct (v (mb_b m)) as [a b e], (v (mb_a m)) as [a' b' e']. unfold vdot, vsub, vmap2 in Hd. cbn [Vec.vx Vec.vy Vec.vz] in Hd. numR.
  assert (Z : forall x y z, x * x + y * y + z * z = 0 -> x = 0).
  { intros x y z Hz. assert (x * x = 0) by (pose proof (Rle_0_sqr x); pose proof (Rle_0_sqr y); pose proof (Rle_0_sqr z); unfold Rsqr in *; lra).
    destruct (Rmult_integral x x); auto. }
  pose proof (Z (a - a') (b - b') (e - e') Hd). pose proof (Z (b - b') (a - a') (e - e') ltac:(lra)). pose proof (Z (e - e') (b - b') (a - a') ltac:(lra)).
  f_equal; lra.
Qed.

(** ** Rotations *)
Lemma KTEE_rotated (q : truss_q (F:=R)) th a : q_n q = vscale (/ len a) a -> q_l q = len a -> len a <> 0 ->
  mvec (truss_KTEE q) (cross th a) = vscale (q_N q) (cross th (q_n q)).
Proof.
  intros Hn Hl H0. unfold truss_KTEE. rewrite Hn, Hl. numR. generalize (q_dsde q * q_A q / q_L q) as s. generalize (q_N q) as N. intros N s.
  generalize dependent (len a). intros l _ _ H0. destruct a as [a1 a2 a3], th as [t1 t2 t3].
  unfold mvec, madd, mscale, msub, meye, vouter, vscale, vadd, vsub, vmap, vmap2, vdot, cross. cbn [vx vy vz]. numR.
  f_equal; field; exact H0.
Qed.

Lemma cross_delta th (x y p : v3 R) : vsub (cross th (vsub x p)) (cross th (vsub y p)) = cross th (vsub x y).
Proof. destruct th, x, y, p. unfold cross, vsub, vmap2. cbn [Vec.vx Vec.vy Vec.vz]. numR. f_equal; ring. Qed.

Lemma stiffness_rotation c ms u an an' Kred V V0 w an1 g th p l :
  truss_ok c ms -> sizes_ok c ms an -> stiffness c u an = Ok (an', Kred) ->
  equilibrium c V V0 w an = Ok (an1, g) -> a_U an1 = a_U an' ->
  (forall m, In m ms -> len (axis c (a_U an') m) <> 0) -> In l (c_labels c) ->
  vsum (map (fun l' => mvec (K_block c (a_K an') l l') (cross th (vsub (place c (a_U an') l') p))) (c_labels c)) =
  cross th (row_of (c_labels c) (a_r an1) vzero l).
Proof.
  intros Hok Hsz H He EU Hlen Hl. destruct (blocks _ _ _ _ _ _ Hok Hsz H) as (qs & Hq & HK & _ & HlU & Hb).
  assert (Hlq : length qs = length ms) by (eapply quants_length; eauto).
  rewrite (block_times c ms _ qs (fun l' => cross th (vsub (place c (a_U an') l') p)) l Hok Hl Hb).
  rewrite (force_sum _ _ _ _ _ _ _ _ qs l Hok Hsz He Hlq Hl), EU, cross_vsum, map_map.
  unfold zipk. rewrite <- (map_combine_snd (A:=nat) _ (seq 0 (length ms)) (combine ms qs)) by (rewrite seq_length, combine_length; lia).
  apply vsum_map_ext. intros [k [m q]] Hin. cbn [fst snd]. fold (zipk 0 ms qs) in Hin.
  apply In_nth_error in Hin. destruct Hin as [k' Hk']. rewrite nth_error_zipk in Hk' by exact Hlq.
  destruct (nth_error ms k') as [m'|] eqn:Em; [|discriminate].
  destruct (nth_error qs k') as [q'|] eqn:Eqq; [|discriminate]. injection Hk' as -> -> ->.
  destruct (quant_form _ _ _ _ _ _ _ (fun _ => vzero) _ _ _ Hok Hsz H Hq HlU Em Eqq) as (_ & Qn & QN & Ql).
  unfold delta. rewrite cross_delta. fold (axis c (a_U an') m).
  rewrite (KTEE_rotated q th (axis c (a_U an') m) Qn Ql) by (apply Hlen; eapply nth_error_In; eauto).
  rewrite QN, Qn. unfold mvec_of, member_vec, force_of, direction. cbn [fst snd].
  change (len (axis c (a_U an') m) / len (axis0 c m)) with (stretch_of c (a_U an') m).
  change (sig_of (mb_law m) (mb_mat m) (state_row c an k) (stretch_of c (a_U an') m - 1)) with (stress_at (mb_law m) (mb_mat m) (state_row c an k) (stretch_of c (a_U an') m - 1)).
  replace (hd 0 (mb_geo m)) with (nth 0 (mb_geo m) 0) by (destruct (mb_geo m); reflexivity).
  generalize (nth 0 (mb_geo m) 0 * stress_at (mb_law m) (mb_mat m) (state_row c an k) (stretch_of c (a_U an') m - 1)).
  generalize (vscale (/ len (axis c (a_U an') m)) (axis c (a_U an') m)). generalize (sg m l).
  intros s [n1 n2 n3] N. destruct th. unfold cross, vscale, vmap. cbn [Vec.vx Vec.vy Vec.vz]. numR. f_equal; ring.
Qed.

(** ** Held components *)
Lemma held_zero c ms an x v d : NoDup (c_labels c) -> (d < 3)%nat -> spreads c an x v -> (forall m, In m ms -> v (mb_b m) = v (mb_a m)) ->
  forall l, held c ms an d l -> vget (v l) d = 0.
Proof.
  intros Hnd Hd [_ H0] Hm l H. induction H as [i l Hi Hn|m Hin H IH|m Hin H IH].
  - destruct (div3 i d Hd) as [E1 E2]. rewrite <- E2 at 1. apply H0; [rewrite E1; exact Hi|exact Hn].
  - rewrite Hm by exact Hin. exact IH.
  - rewrite <- Hm by exact Hin. exact IH.
Qed.
