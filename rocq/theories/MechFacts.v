(** * Mechanics over R *)
From Coq Require Import List ZArith Bool Arith Lia Reals Lra Permutation.
Import ListNotations.
From Verif Require Import Num NumR Vec Handlers Material Analysis Truss Equil ListFacts SpecMech SpecMechR EquilFacts.
Local Open Scope R_scope.

(** ** Vector algebra *)
Ltac vsolve := intros; repeat match goal with v : v3 (v3 R) |- _ => destruct v | v : m3 R |- _ => destruct v | v : v3 R |- _ => destruct v end;
  unfold cross, mvec, mtr, madd, msub, mneg, mscale, vouter, meye, mzero,
    vadd, vsub, vneg, vscale, vdivs, vdot, vzero, vmap, vmap2 in *;
  cbn [vx vy vz vget] in *;
  unfold vadd, vsub, vneg, vscale, vdivs, vdot, vzero, vmap, vmap2 in *;
  cbn [vx vy vz vget] in *; numR.
Ltac veq := vsolve; repeat match goal with |- V3 _ _ _ = V3 _ _ _ => f_equal end; try ring.

Lemma vadd_0_l (v : v3 R) : vadd vzero v = v. Proof. veq. Qed.
Lemma vadd_0_r (v : v3 R) : vadd v vzero = v. Proof. veq. Qed.
Lemma vadd_comm (a b : v3 R) : vadd a b = vadd b a. Proof. veq. Qed.
Lemma vadd_assoc (a b d : v3 R) : vadd (vadd a b) d = vadd a (vadd b d). Proof. veq. Qed.

Lemma vsum_app l1 l2 : vsum (l1 ++ l2) = vadd (vsum l1) (vsum l2).
Proof. induction l1 as [|a l1 IH]; cbn [app vsum fold_right]; [rewrite vadd_0_l; auto|]. fold (vsum (l1 ++ l2)). fold (vsum l1). rewrite IH, vadd_assoc. reflexivity. Qed.

Lemma vsum_perm l1 l2 : Permutation l1 l2 -> vsum l1 = vsum l2.
Proof.
  induction 1; cbn [vsum fold_right]; auto.
  - f_equal. exact IHPermutation.
  - fold (vsum l). rewrite <- !vadd_assoc, (vadd_comm y x). reflexivity.
  - congruence.
Qed.

Lemma vsum_map_add {A} (f g : A -> v3 R) l :
  vsum (map (fun x => vadd (f x) (g x)) l) = vadd (vsum (map f l)) (vsum (map g l)).
Proof.
  induction l as [|a l IH]; cbn [map vsum fold_right]; [rewrite vadd_0_l; auto|].
  fold (vsum (map (fun x => vadd (f x) (g x)) l)). fold (vsum (map f l)). fold (vsum (map g l)).
  rewrite IH. veq.
Qed.

Lemma vsum_map_0 {A} (f : A -> v3 R) l : (forall x, In x l -> f x = vzero) -> vsum (map f l) = vzero.
Proof.
  induction l as [|a l IH]; intros H; cbn [map vsum fold_right]; auto.
  fold (vsum (map f l)). rewrite IH, H, vadd_0_l; cbn; auto. intros; apply H; right; auto.
Qed.

Lemma vsum_map_ext {A} (f g : A -> v3 R) l : (forall x, In x l -> f x = g x) -> vsum (map f l) = vsum (map g l).
Proof. intros H. f_equal. apply map_ext_in. exact H. Qed.

(** Exchange of summation order. *)
Lemma vsum_swap {A B} (f : A -> B -> v3 R) la lb :
  vsum (map (fun a => vsum (map (f a) lb)) la) = vsum (map (fun b => vsum (map (fun a => f a b) la)) lb).
Proof.
  induction la as [|a la IH]; cbn [map vsum fold_right].
  - symmetry. apply vsum_map_0. auto.
  - fold (vsum (map (f a) lb)). fold (vsum (map (fun a => vsum (map (f a) lb)) la)). rewrite IH.
    rewrite <- vsum_map_add. reflexivity.
Qed.

(** Sum over distinct labels of a function supported at one or two of them. *)
Lemma vsum_single (f : Z -> v3 R) labels a : NoDup labels -> In a labels ->
  (forall l, l <> a -> f l = vzero) -> vsum (map f labels) = f a.
Proof.
  intros Hn Hi Hf. induction labels as [|x labels IH]; [destruct Hi|].
  inversion Hn; subst. cbn [map vsum fold_right]. fold (vsum (map f labels)).
  destruct (Z.eq_dec x a) as [->|Hne].
  - rewrite vsum_map_0, vadd_0_r; auto. intros l Hl. apply Hf. intros ->. contradiction.
  - destruct Hi as [|Hi]; [congruence|]. rewrite IH, Hf, vadd_0_l; auto.
Qed.

Lemma vsum_double (f : Z -> v3 R) labels a b : NoDup labels -> In a labels -> In b labels -> a <> b ->
  (forall l, l <> a -> l <> b -> f l = vzero) -> vsum (map f labels) = vadd (f a) (f b).
Proof.
  intros Hn Ha Hb Hab Hf.
  rewrite (vsum_map_ext f (fun l => vadd (if Z.eqb l a then f l else vzero) (if Z.eqb l b then f l else vzero))).
  - rewrite vsum_map_add. f_equal.
    + rewrite (vsum_single _ labels a); auto; [rewrite Z.eqb_refl; auto|].
      intros l Hl. destruct (Z.eqb_spec l a); [contradiction|auto].
    + rewrite (vsum_single _ labels b); auto; [rewrite Z.eqb_refl; auto|].
      intros l Hl. destruct (Z.eqb_spec l b); [contradiction|auto].
  - intros l _. destruct (Z.eqb_spec l a) as [E|E], (Z.eqb_spec l b) as [E'|E'].
    + congruence.
    + rewrite vadd_0_r. reflexivity.
    + rewrite vadd_0_l. reflexivity.
    + rewrite (Hf l E E'), vadd_0_l. reflexivity.
Qed.

(** ** The member quantities over R *)
Lemma vnorm_len (v : v3 R) : vnorm v = len v.
Proof. reflexivity. Qed.

Lemma member_q_inv c ms U U0 sv m q :
  truss_ok c ms -> In m ms -> length U = length (c_labels c) ->
  member_q c U U0 sv m = Ok q ->
  q_n q = direction c U m /\ q_lam q = stretch_of c U m /\ q_L q = len (axis0 c m) /\
  q_l q = len (axis c U m) /\
  exists de, umat (mb_law m) (stretch_of c U m - 1) de (mb_mat m) sv = Ok (q_stress q, q_dsde q, q_state q) /\
  item (mb_geo m) 0 = Ok (q_A q) /\ q_N q = q_stress q * q_A q.
Proof.
  intros (Hnd & Hco & _ & _ & Hnodes) Hm HU H. destruct (Hnodes m Hm) as (Ha & Hb & _).
  unfold member_q in H. rewrite <- !row_of_nth in H by auto.
  unfold truss_quantities in H. cbn zeta in H.
  set (XA := row_of (c_labels c) (c_coords c) vzero (mb_a m)) in *.
  set (XE := row_of (c_labels c) (c_coords c) vzero (mb_b m)) in *.
  set (UA := row_of (c_labels c) U vzero (mb_a m)) in *.
  set (UE := row_of (c_labels c) U vzero (mb_b m)) in *.
  assert (Hax : vadd (vsub XE XA) (vsub UE UA) = axis c U m).
  { unfold axis, place. fold XA XE UA UE. veq. }
  rewrite Hax in H.
  change (vsub XE XA) with (axis0 c m) in H. rewrite vnorm_len in H.
  change (fsqrt (vdot (axis c U m) (axis c U m))) with (len (axis c U m)) in H.
  change (fsqrt (vdot (axis0 c m) (axis0 c m))) with (len (axis0 c m)) in H.
  change (fdiv (len (axis c U m)) (len (axis0 c m))) with (stretch_of c U m) in H.
  mstep H. destruct a as [[s d] sv']. mstep H. injection H as <-.
  cbn [q_n q_lam q_L q_l q_stress q_dsde q_state q_A q_N].
  split. { unfold direction. generalize (axis c U m) as v. intros v. generalize (len v) as x. intros x. veq; numR; unfold Rdiv; ring. }
  do 3 (split; [reflexivity|]). eexists. split; [exact Ha0|]. split; [exact Ha1|reflexivity].
Qed.

(** ** Assembly of the internal forces *)
Lemma radd_nth (r : list (v3 R)) i j v : (i < length r)%nat ->
  nth j (radd r i v) vzero = if Nat.eqb j i then vadd (nth j r vzero) v else nth j r vzero.
Proof.
  intros H. unfold radd. rewrite nth_set_nth. destruct (Nat.ltb_spec i (length r)); [|lia].
  rewrite andb_true_r. destruct (Nat.eqb_spec j i); subst; auto.
Qed.

Lemma vneg_scale s (v : v3 R) : vscale s (vneg v) = vneg (vscale s v).
Proof. veq. Qed.

Lemma r_member_nth c ms U r m q l :
  truss_ok c ms -> In m ms -> In l (c_labels c) -> length r = length (c_labels c) ->
  q_n q = direction c U m ->
  nth (idx l (c_labels c)) (r_member c r (m, q)) vzero
  = vadd (nth (idx l (c_labels c)) r vzero) (pull c U l (m, q_N q)).
Proof.
  intros (Hnd & Hco & _ & _ & Hnodes) Hm Hl Hr Hq. destruct (Hnodes m Hm) as (Ha & Hb & Hab).
  pose proof (idx_lt _ _ Ha). pose proof (idx_lt _ _ Hb).
  unfold r_member, pull. cbn [fst snd].
  rewrite radd_nth by (rewrite radd_length; lia). rewrite radd_nth by lia.
  rewrite Hq, vneg_scale.
  destruct (Nat.eqb_spec (idx l (c_labels c)) (idx (mb_b m) (c_labels c))) as [E|E].
  - apply idx_inj in E; auto. subst l. rewrite Z.eqb_refl.
    destruct (Nat.eqb_spec (idx (mb_b m) (c_labels c)) (idx (mb_a m) (c_labels c))) as [E'|E']; auto.
    apply idx_inj in E'; auto. congruence.
  - destruct (Z.eqb_spec l (mb_b m)) as [->|]; [congruence|].
    destruct (Nat.eqb_spec (idx l (c_labels c)) (idx (mb_a m) (c_labels c))) as [E'|E'].
    + apply idx_inj in E'; auto. subst l. rewrite Z.eqb_refl. reflexivity.
    + destruct (Z.eqb_spec l (mb_a m)) as [->|]; [congruence|]. rewrite vadd_0_r. reflexivity.
Qed.

Lemma r_fold_length (c : ctx R) mqs r : length (fold_left (r_member c) mqs r) = length r.
Proof. revert r. induction mqs as [|x mqs IH]; intros r; cbn; auto. rewrite IH. apply r_member_length. Qed.

Lemma r_fold_nth c ms U l : truss_ok c ms -> In l (c_labels c) -> forall mqs r,
  (forall m q, In (m, q) mqs -> In m ms /\ q_n q = direction c U m) ->
  length r = length (c_labels c) ->
  nth (idx l (c_labels c)) (fold_left (r_member c) mqs r) vzero
  = vadd (nth (idx l (c_labels c)) r vzero)
         (vsum (map (fun mq => pull c U l (fst mq, q_N (snd mq))) mqs)).
Proof.
  intros Hok Hl. induction mqs as [|[m q] mqs IH]; intros r Hin Hr; cbn [fold_left map vsum fold_right].
  - rewrite vadd_0_r. reflexivity.
  - destruct (Hin m q (or_introl eq_refl)) as [Hm Hq].
    rewrite IH; [|intros; apply Hin; right; auto|rewrite r_member_length; auto].
    rewrite (r_member_nth c ms U) by auto. rewrite vadd_assoc. reflexivity.
Qed.

(** ** equil_prepare *)
Lemma prepare_sizes c ms st V V0 an an1 u lam :
  sizes_ok c ms an -> equil_prepare c st V V0 an = Ok (an1, u, lam) -> sizes_ok c ms an1.
Proof.
  intros (HU & HU0 & Hr & HK & HKr & Hst & Hss & Hf & HD & HD' & Hn & Hsv) H.
  unfold equil_prepare in H. mstep H. mstep H. injection H as <- <- <-.
  apply scatter_length in Ha, Ha0.
  unfold sizes_ok. destruct st; cbn in *; rewrite ?map_length in *; repeat split; auto; try congruence.
  intros row Hin. apply in_map_iff in Hin. destruct Hin as (row' & <- & Hin). rewrite map_length. auto.
Qed.

Lemma prepare_frame c st V V0 (an : analysis R) an1 u lam :
  equil_prepare c st V V0 an = Ok (an1, u, lam) ->
  a_state an1 = a_state an /\ a_DOF1 an1 = a_DOF1 an /\ a_DOF0 an1 = a_DOF0 an /\
  a_fconst an1 = a_fconst an /\ a_forces an1 = a_forces an /\ a_lpf an1 = a_lpf an /\
  a_f0red an1 = a_f0red an /\ a_j an1 = a_j an /\ a_stretch an1 = a_stretch an /\
  a_stress an1 = a_stress an /\ a_force an1 = a_force an.
Proof.
  unfold equil_prepare. intros H. mstep H. mstep H. injection H as <- <- <-.
  destruct st; cbn; repeat split.
Qed.

Lemma equilibrium_inv c ms V V0 w an an' gr :
  truss_ok c ms -> sizes_ok c ms an -> equilibrium c V V0 w an = Ok (an', gr) ->
  exists an1 u lam qs g,
    equil_prepare c StG V V0 an = Ok (an1, u, lam) /\
    quants c (a_U an') (a_U0 an') (state_row c an) 0 ms qs /\
    an' = set_g g (loop_an StG c u lam w (zipk 0 ms qs) an1) /\
    (exists s1, bcast2 fadd (map fopp (vflat (a_r an'))) (concat (a_fconst an)) = Ok s1 /\
       bcast2 fadd s1 (map (fmul lam) (concat (a_forces an))) = Ok g) /\
    gather g (a_DOF1 an) = Ok gr.
Proof.
  intros Hok Hsz H. unfold equilibrium in H. mstep H. destruct a as [[an1 u] lam]. mstep H.
  pose proof (prepare_sizes _ _ _ _ _ _ _ _ _ Hsz Ha) as Hsz1.
  destruct (elem_loop_inv _ _ _ _ _ _ _ _ Hok Hsz1 Ha0) as (qs & Hq & ->).
  mstep H. mstep H. mstep H. injection H as <- <-.
  exists an1, u, lam, qs, a0. split; [exact Ha|].
  pose proof (loop_frame StG c u lam w (zipk 0 ms qs) an1) as Hf. cbn zeta in Hf.
  destruct Hf as (E1 & E2 & _ & _ & _ & E3 & _ & _ & _ & _ & _ & _ & E4 & E5).
  pose proof (prepare_frame _ _ _ _ _ _ _ _ Ha) as (P1 & P2 & _ & P3 & P4 & _).
  cbn [a_U a_U0 set_g a_r]. rewrite E1, E2.
  split.
  - eapply quants_ext; [|exact Hq]. intros j _. unfold state_row. rewrite P1. reflexivity.
  - split; [reflexivity|]. rewrite E4, P3 in Ha1. rewrite E5, P4 in Ha2. rewrite E3, P2 in Ha3.
    split; [|exact Ha3]. exists a. split; assumption.
Qed.

Lemma quants_In c ms U U0 row k ms2 qs : quants c U U0 row k ms2 qs ->
  (forall m, In m ms2 -> In m ms) -> truss_ok (F:=R) c ms -> length U = length (c_labels c) ->
  forall m q, In (m, q) (combine ms2 qs) -> In m ms /\ q_n q = direction c U m.
Proof.
  induction 1 as [|k m0 ms0 q0 qs0 Hq Hqs IH]; intros Hin Hok HU m q H; [destruct H|].
  cbn in H. destruct H as [H|H].
  - injection H as <- <-. assert (Hm : In m0 ms) by (apply Hin; left; auto). split; auto.
    eapply member_q_inv; eauto.
  - apply IH; auto. intros; apply Hin; right; auto.
Qed.

Lemma map_combine_map {A B C D} (f : A * C -> D) (g : B -> C) (la : list A) (lb : list B) :
  map (fun p => f (fst p, g (snd p))) (combine la lb) = map f (combine la (map g lb)).
Proof. revert lb. induction la as [|a la IH]; intros [|b lb]; cbn; auto. f_equal. auto. Qed.

Lemma a_r_prepared c V V0 (an an1 : analysis R) u lam l : equil_prepare c StG V V0 an = Ok (an1, u, lam) ->
  nth l (a_r an1) vzero = vzero.
Proof.
  unfold equil_prepare. intros H. mstep H. mstep H. injection H as <- <- <-. cbn.
  generalize (a_r an) as r. intros r. revert l. induction r as [|x r IH]; intros [|l]; cbn; auto.
Qed.

(** Statement used for C15. *)
Lemma internal_forces c ms V V0 w an an' g :
  truss_ok c ms -> sizes_ok c ms an -> equilibrium c V V0 w an = Ok (an', g) ->
  (forall k m, nth_error ms k = Some m ->
     exists s t st de A,
       umat (mb_law m) (stretch_of c (a_U an') m - 1) de (mb_mat m) (state_row c an k) = Ok (s, t, st) /\
       nth_error (mb_geo m) 0 = Some A /\
       nth_error (a_stretch an') k = Some (stretch_of c (a_U an') m) /\
       nth_error (a_stress an') k = Some s /\
       nth_error (a_force an') k = Some (A * s)) /\
  (forall l, In l (c_labels c) ->
     row_of (c_labels c) (a_r an') vzero l = vsum (map (pull c (a_U an') l) (combine ms (a_force an')))).
Proof.
  intros Hok Hsz H.
  destruct (equilibrium_inv _ _ _ _ _ _ _ _ Hok Hsz H) as (an1 & u & lam & qs & g' & Hp & Hq & E & _ & _).
  pose proof (prepare_sizes _ _ _ _ _ _ _ _ _ Hsz Hp) as Hsz1.
  pose proof (quants_length _ _ _ _ _ _ _ Hq) as Hlq.
  assert (HS : length (a_stretch an1) = length ms /\ length (a_stress an1) = length ms /\
               length (a_force an1) = length ms /\ length (a_r an1) = length (c_labels c) /\
               length (a_U an1) = length (c_labels c)) by (destruct Hsz1 as (? & ? & ? & ? & ? & ? & ? & ? & _); auto).
  destruct HS as (S1 & S2 & S3 & S4 & S5).
  assert (HU : length (a_U an') = length (c_labels c)).
  { subst an'. cbn [a_U set_g].
    pose proof (loop_frame StG c u lam w (zipk 0 ms qs) an1) as Hf. cbn zeta in Hf.
    destruct Hf as (-> & _). exact S5. }
  assert (F1 : a_stretch an' = map q_lam qs) by (subst an'; apply loop_stretch; auto).
  assert (F2 : a_stress an' = map q_stress qs) by (subst an'; apply loop_stress; auto).
  assert (F3 : a_force an' = map q_N qs) by (subst an'; apply loop_force; auto).
  assert (F4 : a_r an' = fold_left (r_member c) (combine ms qs) (a_r an1)) by (subst an'; apply loop_r; auto).
  split.
  - intros k m Hk. destruct (quants_nth _ _ _ _ _ _ _ Hq _ _ Hk) as (q & Hqk & Hmq).
    destruct (member_q_inv c ms (a_U an') _ _ _ _ Hok (nth_error_In _ _ Hk) HU Hmq)
      as (_ & Hl & _ & _ & de & Hu & HA & HN).
    exists (q_stress q), (q_dsde q), (q_state q), de, (q_A q).
    split; [exact Hu|]. split.
    + unfold item in HA. destruct (nth_error (mb_geo m) 0); congruence.
    + rewrite F1, F2, F3, !nth_error_map, Hqk. cbn [option_map]. repeat split; f_equal; auto.
      rewrite HN. ring.
  - intros l Hl. rewrite row_of_nth by
      (auto; first [apply Hok | rewrite F4, r_fold_length; exact S4]).
    rewrite F4. rewrite (r_fold_nth c ms (a_U an') l Hok Hl).
    + rewrite (a_r_prepared _ _ _ _ _ _ _ _ Hp), vadd_0_l, F3. rewrite map_combine_map. reflexivity.
    + eapply quants_In; eauto.
    + exact S4.
Qed.

(** ** Self-equilibrium (C16) *)
Lemma pull_sum c ms U m N : truss_ok c ms -> In m ms ->
  vsum (map (fun l => pull c U l (m, N)) (c_labels c)) = vzero.
Proof.
  intros (Hnd & _ & _ & _ & Hnodes) Hm. destruct (Hnodes m Hm) as (Ha & Hb & Hab).
  rewrite (vsum_double _ _ (mb_a m) (mb_b m)); auto.
  - unfold pull. cbn [fst snd]. rewrite !Z.eqb_refl. destruct (Z.eqb_spec (mb_a m) (mb_b m)); [contradiction|]. veq.
  - intros l H1 H2. unfold pull. cbn [fst snd].
    destruct (Z.eqb_spec l (mb_b m)); [contradiction|]. destruct (Z.eqb_spec l (mb_a m)); [contradiction|auto].
Qed.

Lemma pull_moment c ms U m N p : truss_ok c ms -> In m ms ->
  vsum (map (fun l => cross (vsub (place c U l) p) (pull c U l (m, N))) (c_labels c)) = vzero.
Proof.
  intros (Hnd & _ & _ & _ & Hnodes) Hm. destruct (Hnodes m Hm) as (Ha & Hb & Hab).
  rewrite (vsum_double _ _ (mb_a m) (mb_b m)); auto.
  - unfold pull. cbn [fst snd]. rewrite !Z.eqb_refl. destruct (Z.eqb_spec (mb_a m) (mb_b m)); [contradiction|].
    unfold direction, axis. generalize (/ len (vsub (place c U (mb_b m)) (place c U (mb_a m)))) as s.
    generalize (place c U (mb_a m)) as xa. generalize (place c U (mb_b m)) as xb. veq.
  - intros l H1 H2. unfold pull. cbn [fst snd].
    destruct (Z.eqb_spec l (mb_b m)); [contradiction|]. destruct (Z.eqb_spec l (mb_a m)); [contradiction|].
    generalize (vsub (place c U l) p). veq.
Qed.

Lemma cross_vsum a l : cross a (vsum l) = vsum (map (cross a) l).
Proof.
  induction l as [|v l IH]; cbn [map vsum fold_right]; [veq|].
  fold (vsum l). fold (vsum (map (cross a) l)). rewrite <- IH. generalize (vsum l). veq.
Qed.

Lemma map_row_of {A} labels (arr : list A) d : NoDup labels -> length arr = length labels ->
  map (row_of labels arr d) labels = arr.
Proof.
  revert arr. induction labels as [|a labels IH]; intros [|x arr] Hn Hl; try discriminate; auto.
  inversion Hn; subst. cbn [map row_of]. rewrite Z.eqb_refl. f_equal.
  cbn in Hl. transitivity (map (row_of labels arr d) labels); [|apply IH; auto; lia]. apply map_ext_in. intros l Hin.
  destruct (Z.eqb_spec l a) as [->|]; [contradiction|reflexivity].
Qed.

Lemma equilibrium_lengths c ms V V0 w an an' g :
  truss_ok c ms -> sizes_ok c ms an -> equilibrium c V V0 w an = Ok (an', g) -> sizes_ok c ms an'.
Proof.
  intros Hok Hsz H.
  destruct (equilibrium_inv _ _ _ _ _ _ _ _ Hok Hsz H) as (an1 & u & lam & qs & g' & Hp & Hq & E & _ & _).
  pose proof (prepare_sizes _ _ _ _ _ _ _ _ _ Hsz Hp) as Hsz1.
  subst an'. unfold sizes_ok. cbn. apply (loop_sizes StG c ms u lam w (zipk 0 ms qs) an1 Hok); auto.
  intros x Hx. eapply zipk_In; eauto.
Qed.

Lemma self_equilibrium c ms V V0 w an an' g :
  truss_ok c ms -> sizes_ok c ms an -> equilibrium c V V0 w an = Ok (an', g) ->
  vsum (a_r an') = vzero /\
  forall p, vsum (map2 (fun x r => cross (vsub x p) r)
                       (map2 vadd (c_coords c) (a_U an')) (a_r an')) = vzero.
Proof.
  intros Hok Hsz H. pose proof (equilibrium_lengths _ _ _ _ _ _ _ _ Hok Hsz H) as Hsz'.
  destruct Hsz' as (HU & _ & Hr & _). destruct (internal_forces _ _ _ _ _ _ _ _ Hok Hsz H) as [_ Hf].
  assert (Hnd := proj1 Hok). assert (Hco := proj1 (proj2 Hok)).
  set (mN := combine ms (a_force an')) in *.
  assert (HmN : forall x, In x mN -> In (fst x) ms).
  { intros [m N] Hx. apply in_combine_l in Hx. exact Hx. }
  split.
  - rewrite <- (map_row_of (c_labels c) (a_r an') vzero) by auto.
    rewrite (vsum_map_ext _ _ _ Hf). rewrite vsum_swap. apply vsum_map_0.
    intros [m N] Hx. apply (pull_sum c ms); auto. apply (HmN _ Hx).
  - intros p.
    assert (E : map2 (fun x r => cross (vsub x p) r) (map2 vadd (c_coords c) (a_U an')) (a_r an')
      = map (fun l => cross (vsub (place c (a_U an') l) p) (row_of (c_labels c) (a_r an') vzero l)) (c_labels c)).
    { pose proof (map_row_of (c_labels c) (c_coords c) vzero Hnd Hco) as M1.
      pose proof (map_row_of (c_labels c) (a_U an') vzero Hnd HU) as M2.
      pose proof (map_row_of (c_labels c) (a_r an') vzero Hnd Hr) as M3.
      unfold place. rewrite <- M1 at 1. rewrite <- M2 at 1. rewrite <- M3 at 1.
      generalize (row_of (c_labels c) (c_coords c) vzero) as f1'.
      generalize (row_of (c_labels c) (a_U an') vzero) as f2'.
      generalize (row_of (c_labels c) (a_r an') vzero) as f3'.
      clear. intros. induction (c_labels c) as [|a ls IH]; cbn [map map2]; auto. f_equal. exact IH. }
    rewrite E.
    rewrite (vsum_map_ext _ (fun l => vsum (map (fun mn => cross (vsub (place c (a_U an') l) p) (pull c (a_U an') l mn)) mN))).
    + rewrite vsum_swap. apply vsum_map_0. intros [m N] Hx. apply (pull_moment c ms); auto. apply (HmN _ Hx).
    + intros l Hl. rewrite Hf by exact Hl. rewrite cross_vsum, map_map. reflexivity.
Qed.

(** ** Objectivity (C17) *)

Lemma len_orth Q v : orthogonal Q -> len (mvec Q v) = len v.
Proof. intros H. unfold len. f_equal. specialize (H v v). unfold vdot in H. numR. exact H. Qed.

Lemma mvec_sub Q a b : mvec Q (vsub a b) = vsub (mvec Q a) (mvec Q b). Proof. veq. Qed.
Lemma mvec_add Q a b : mvec Q (vadd a b) = vadd (mvec Q a) (mvec Q b). Proof. veq. Qed.
Lemma mvec_scale Q s a : mvec Q (vscale s a) = vscale s (mvec Q a). Proof. veq. Qed.
Lemma mvec_neg Q a : mvec Q (vneg a) = vneg (mvec Q a). Proof. veq. Qed.
Lemma mvec_zero Q : mvec Q vzero = vzero. Proof. veq. Qed.
Lemma mvec_vsum Q l : mvec Q (vsum l) = vsum (map (mvec Q) l).
Proof.
  induction l as [|v l IH]; cbn [map vsum fold_right]; [apply mvec_zero|].
  fold (vsum l). fold (vsum (map (mvec Q) l)). rewrite mvec_add, IH. reflexivity.
Qed.

Lemma umat_de u e de de' mat sv : umat (F:=R) u e de mat sv = umat u e de' mat sv.
Proof. destruct u; reflexivity. Qed.

Lemma objectivity c ms V V0 w an an1 g W W0 w2 an0 an2 g2 Q t :
  truss_ok c ms -> sizes_ok c ms an -> sizes_ok c ms an0 ->
  a_state an0 = a_state an ->
  equilibrium c V V0 w an = Ok (an1, g) -> equilibrium c W W0 w2 an0 = Ok (an2, g2) ->
  orthogonal Q ->
  (forall l, In l (c_labels c) -> place c (a_U an2) l = vadd (mvec Q (place c (a_U an1) l)) t) ->
  a_stretch an2 = a_stretch an1 /\ a_stress an2 = a_stress an1 /\ a_force an2 = a_force an1 /\
  forall l, In l (c_labels c) ->
    row_of (c_labels c) (a_r an2) vzero l = mvec Q (row_of (c_labels c) (a_r an1) vzero l).
Proof.
  intros Hok Hsz Hsz0 Hst H1 H2 HQ Hpl.
  destruct (internal_forces _ _ _ _ _ _ _ _ Hok Hsz H1) as [A1 B1].
  destruct (internal_forces _ _ _ _ _ _ _ _ Hok Hsz0 H2) as [A2 B2].
  pose proof (equilibrium_lengths _ _ _ _ _ _ _ _ Hok Hsz H1) as (_ & _ & _ & _ & _ & L1 & L2 & L3 & _).
  pose proof (equilibrium_lengths _ _ _ _ _ _ _ _ Hok Hsz0 H2) as (_ & _ & _ & _ & _ & M1 & M2 & M3 & _).
  assert (Hax : forall m, In m ms -> axis c (a_U an2) m = mvec Q (axis c (a_U an1) m)).
  { intros m Hm. destruct Hok as (_ & _ & _ & _ & Hn). destruct (Hn m Hm) as (Ha & Hb & _).
    unfold axis. rewrite !Hpl by auto. rewrite mvec_sub.
    generalize (mvec Q (place c (a_U an1) (mb_a m))). generalize (mvec Q (place c (a_U an1) (mb_b m))). veq. }
  assert (Hlam : forall m, In m ms -> stretch_of c (a_U an2) m = stretch_of c (a_U an1) m).
  { intros m Hm. unfold stretch_of. rewrite Hax, len_orth by auto. reflexivity. }
  assert (Hall : forall k, nth_error (a_stretch an2) k = nth_error (a_stretch an1) k /\
     nth_error (a_stress an2) k = nth_error (a_stress an1) k /\ nth_error (a_force an2) k = nth_error (a_force an1) k).
  { intros k. destruct (nth_error ms k) as [m|] eqn:Hk.
    - destruct (A1 _ _ Hk) as (s & t1 & st1 & de & A & U1 & G1 & S1 & S2 & S3).
      destruct (A2 _ _ Hk) as (s' & t1' & st1' & de' & A' & U1' & G1' & S1' & S2' & S3').
      assert (Hm : In m ms) by (eapply nth_error_In; eauto).
      rewrite Hlam in U1', S1' by auto.
      assert (Er : state_row c an0 k = state_row c an k) by (unfold state_row; rewrite Hst; reflexivity).
      rewrite Er, (umat_de _ _ de' de) in U1'. assert (s' = s) by congruence. assert (A' = A) by congruence. subst.
      rewrite S1, S2, S3, S1', S2', S3'. auto.
    - apply nth_error_None in Hk. rewrite !(proj2 (nth_error_None _ _)) by lia. auto. }
  assert (E3 : a_force an2 = a_force an1) by (apply nth_error_ext; intros k; apply Hall).
  split; [apply nth_error_ext; intros k; apply Hall|]. split; [apply nth_error_ext; intros k; apply Hall|].
  split; [exact E3|].
  intros l Hl. rewrite B1, B2, mvec_vsum, map_map, E3 by exact Hl. apply vsum_map_ext.
  intros [m N] Hx. assert (Hm : In m ms) by (apply in_combine_l in Hx; exact Hx).
  assert (Hd : direction c (a_U an2) m = mvec Q (direction c (a_U an1) m)).
  { unfold direction. rewrite Hax, len_orth, mvec_scale by auto. reflexivity. }
  unfold pull. cbn [fst snd]. rewrite Hd. destruct (Z.eqb l (mb_b m)); [rewrite mvec_scale; reflexivity|].
  destruct (Z.eqb l (mb_a m)); [rewrite mvec_neg, mvec_scale; reflexivity|]. rewrite mvec_zero. reflexivity.
Qed.
