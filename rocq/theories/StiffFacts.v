(** * The assembled stiffness over R *)
From Coq Require Import List ZArith Bool Arith Lia Reals Lra Permutation.
Import ListNotations.
From Verif Require Import Num NumR Vec Handlers Material Analysis Truss Equil ListFacts SpecMech SpecMechR EquilFacts MechFacts.
Local Open Scope R_scope.

Definition msum (l : list (m3 R)) : m3 R := fold_right madd mzero l.

(** +1 at the end node, -1 at the begin node, 0 elsewhere. *)
Definition sg (m : member R) (l : Z) : R :=
  if Z.eqb l (mb_b m) then 1 else if Z.eqb l (mb_a m) then -1 else 0.

Lemma madd_0_r (M : m3 R) : madd M mzero = M. Proof. veq. Qed.
Lemma madd_0_l (M : m3 R) : madd mzero M = M. Proof. veq. Qed.
Lemma madd_assoc (a b d : m3 R) : madd (madd a b) d = madd a (madd b d). Proof. veq. Qed.
Lemma madd_comm (a b : m3 R) : madd a b = madd b a. Proof. veq. Qed.

Lemma msum_perm l1 l2 : Permutation l1 l2 -> msum l1 = msum l2.
Proof.
  induction 1; cbn [msum fold_right]; auto.
  - f_equal. exact IHPermutation.
  - fold (msum l). rewrite <- !madd_assoc, (madd_comm y x). reflexivity.
  - congruence.
Qed.

Definition kent (K : list (list (m3 R))) (i j : nat) : m3 R := nth j (nth i K []) mzero.

Lemma kent_kadd n K a b M i j : kdims n K -> (a < n)%nat -> (b < n)%nat ->
  kent (kadd K a b M) i j = if (Nat.eqb i a && Nat.eqb j b)%bool then madd (kent K i j) M else kent K i j.
Proof.
  intros HK Ha Hb. pose proof (kdims_nth _ _ _ HK Ha) as Hra. unfold kent, kadd.
  rewrite nth_set_nth. destruct HK as [Hl _].
  destruct (Nat.ltb_spec a (length K)); [|lia]. rewrite andb_true_r.
  destruct (Nat.eqb_spec i a) as [->|]; [|reflexivity]. cbn [andb].
  rewrite nth_set_nth. destruct (Nat.ltb_spec b (length (nth a K []))); [|lia].
  rewrite andb_true_r. destruct (Nat.eqb_spec j b) as [->|]; reflexivity.
Qed.

Lemma mscale_1 (M : m3 R) : mscale 1 M = M. Proof. veq. Qed.

Lemma k_member_dims c ms K m q : truss_ok c ms -> In m ms -> kdims (length (c_labels c)) K ->
  kdims (length (c_labels c)) (k_member c K (m, q)).
Proof.
  intros (_ & _ & _ & _ & Hnodes) Hm HK. destruct (Hnodes m Hm) as (Ha & Hb & _).
  apply idx_lt in Ha. apply idx_lt in Hb. unfold k_member. cbn [fst snd].
  repeat (apply kdims_kadd; auto).
Qed.

Lemma k_member_ent c ms K m q l l' :
  truss_ok c ms -> In m ms -> In l (c_labels c) -> In l' (c_labels c) -> kdims (length (c_labels c)) K ->
  kent (k_member c K (m, q)) (idx l (c_labels c)) (idx l' (c_labels c))
  = madd (kent K (idx l (c_labels c)) (idx l' (c_labels c))) (mscale (sg m l * sg m l') (truss_KTEE q)).
Proof.
  intros (Hnd & Hco & _ & _ & Hnodes) Hm Hl Hl' HK. destruct (Hnodes m Hm) as (Ha & Hb & Hab).
  pose proof (idx_lt _ _ Ha). pose proof (idx_lt _ _ Hb).
  assert (Hex : forall x y, In x (c_labels c) -> In y (c_labels c) ->
     Nat.eqb (idx x (c_labels c)) (idx y (c_labels c)) = Z.eqb x y).
  { intros x y Hx Hy. destruct (Z.eqb_spec x y) as [->|Hne]; [apply Nat.eqb_refl|].
    apply Nat.eqb_neq. intros E. apply Hne. eapply idx_inj; eauto. }
  unfold k_member. cbn [fst snd].
  rewrite !(kent_kadd (length (c_labels c))) by (auto; repeat (apply kdims_kadd; auto)).
  rewrite !Hex by auto. unfold sg.
  generalize (kent K (idx l (c_labels c)) (idx l' (c_labels c))) as B. generalize (truss_KTEE q) as M. intros M B.
  destruct (Z.eqb_spec l (mb_a m)) as [->|N1], (Z.eqb_spec l' (mb_a m)) as [->|N2];
  destruct (Z.eqb_spec (mb_a m) (mb_b m)); try contradiction; cbn [andb];
  try (destruct (Z.eqb_spec l' (mb_b m))); try (destruct (Z.eqb_spec l (mb_b m))); cbn [andb]; try congruence; veq.
Qed.

Lemma k_fold_dims c ms mqs : truss_ok c ms -> forall K,
  (forall m q, In (m, q) mqs -> In m ms) -> kdims (length (c_labels c)) K ->
  kdims (length (c_labels c)) (fold_left (k_member c) mqs K).
Proof.
  intros Hok. induction mqs as [|[m q] mqs IH]; intros K Hin HK; cbn [fold_left]; auto.
  apply IH; [intros; eapply Hin; right; eauto|]. eapply k_member_dims; eauto. eapply Hin. left. reflexivity.
Qed.

Lemma k_fold_ent c ms l l' : truss_ok c ms -> In l (c_labels c) -> In l' (c_labels c) -> forall mqs K,
  (forall m q, In (m, q) mqs -> In m ms) -> kdims (length (c_labels c)) K ->
  kent (fold_left (k_member c) mqs K) (idx l (c_labels c)) (idx l' (c_labels c))
  = madd (kent K (idx l (c_labels c)) (idx l' (c_labels c)))
         (msum (map (fun mq => mscale (sg (fst mq) l * sg (fst mq) l') (truss_KTEE (snd mq))) mqs)).
Proof.
  intros Hok Hl Hl'. induction mqs as [|[m q] mqs IH]; intros K Hin HK; cbn [fold_left map msum fold_right].
  - rewrite madd_0_r. reflexivity.
  - assert (Hm : In m ms) by (eapply Hin; left; reflexivity).
    rewrite IH; [|intros; eapply Hin; right; eauto|eapply k_member_dims; eauto].
    rewrite (k_member_ent c ms) by auto. rewrite madd_assoc. reflexivity.
Qed.

(** ** flat_K and select2 *)
Definition flat_row (row : list (m3 R)) : v3 (list R) :=
  V3 (vflat (map vx row)) (vflat (map vy row)) (vflat (map vz row)).

Lemma flat_K_vflat (K : list (list (m3 R))) : flat_K K = vflat (map flat_row K).
Proof.
  unfold flat_K, vflat at 1. induction K as [|row K IH]; cbn [flat_map map]; auto.
  rewrite IH. f_equal. unfold flat_row, vlist, vflat. cbn [vx vy vz].
  assert (E : forall (f : m3 R -> v3 R), flat_map (fun b => vlist (f b)) row = flat_map vlist (map f row)).
  { intros f. clear. induction row as [|b row IH]; cbn [flat_map map]; auto. rewrite IH. reflexivity. }
  unfold vlist in E. rewrite !E. reflexivity.
Qed.

Lemma flat_K_ent n K p q : kdims n K -> (p < 3 * n)%nat -> (q < 3 * n)%nat ->
  nth q (nth p (flat_K K) []) 0 = vget (vget (kent K (p / 3) (q / 3)) (p mod 3)) (q mod 3).
Proof.
  intros HK Hp Hq. assert (Hp3 : (p / 3 < n)%nat) by (apply Nat.div_lt_upper_bound; lia).
  assert (Hq3 : (q / 3 < n)%nat) by (apply Nat.div_lt_upper_bound; lia).
  pose proof (kdims_nth _ _ _ HK Hp3) as Hrow. destruct HK as [Hl _].
  rewrite flat_K_vflat.
  assert (E1 : nth_error (vflat (map flat_row K)) p = Some (vget (flat_row (nth (p / 3) K [])) (p mod 3))).
  { rewrite nth_error_vflat, nth_error_map, (nth_nth_error K (p / 3) []) by lia. reflexivity. }
  rewrite (nth_error_nth _ _ _ E1).
  assert (E2 : vget (flat_row (nth (p / 3) K [])) (p mod 3)
     = vflat (map (fun b => vget b (p mod 3)) (nth (p / 3) K []))).
  { unfold flat_row. pose proof (Nat.mod_upper_bound p 3 ltac:(lia)).
    destruct (p mod 3) as [|[|[|]]]; [reflexivity|reflexivity|reflexivity|lia]. }
  rewrite E2.
  assert (E3 : nth_error (vflat (map (fun b => vget b (p mod 3)) (nth (p / 3) K []))) q
     = Some (vget (vget (kent K (p / 3) (q / 3)) (p mod 3)) (q mod 3))).
  { rewrite nth_error_vflat, nth_error_map. pose proof (nth_nth_error (nth (p / 3) K []) (q / 3) mzero ltac:(lia)) as E. unfold m3 in *. rewrite E. reflexivity. }
  rewrite (nth_error_nth _ _ _ E3). reflexivity.
Qed.

Lemma flat_K_dims n (K : list (list (m3 R))) : kdims n K -> length (flat_K K) = (3 * n)%nat /\
  forall row, In row (flat_K K) -> length row = (3 * n)%nat.
Proof.
  intros [Hl Hr]. rewrite flat_K_vflat, vflat_length, map_length, Hl. split; auto.
  intros row Hin. unfold vflat in Hin. apply in_flat_map in Hin. destruct Hin as (fr & Hfr & Hin).
  apply in_map_iff in Hfr. destruct Hfr as (r0 & <- & Hr0). apply Hr in Hr0.
  cbn in Hin. destruct Hin as [<-|[<-|[<-|[]]]]; rewrite vflat_length, map_length; unfold m3 in *; lia.
Qed.

Lemma gather_length {A} (a : list A) ix l : gather a ix = Ok l -> length l = length ix.
Proof. intros H. apply gather_nth in H. tauto. Qed.

Lemma select2_fold (rows : list (list R)) ix : forall acc res,
  foldM (fun acc row => r <- gather row ix ;; Ok (acc ++ [r])) rows acc = Ok res ->
  exists l, res = acc ++ l /\ length l = length rows /\
    forall i row, nth_error rows i = Some row -> exists r, nth_error l i = Some r /\ gather row ix = Ok r.
Proof.
  induction rows as [|row rows IH]; intros acc res H; cbn [foldM] in H.
  - injection H as <-. exists []. rewrite app_nil_r. repeat split; auto. intros [|i] row H; discriminate.
  - mstep H. mstep Ha. injection Ha as <-. destruct (IH _ _ H) as (l & -> & Hl & Hn).
    exists (a0 :: l). rewrite <- app_assoc. repeat split; cbn; auto.
    intros [|i] row' Hi; cbn in Hi |- *; [injection Hi as <-; exists a0; auto|exact (Hn _ _ Hi)].
Qed.

Lemma select2_ent (M : list (list R)) ix res : select2 M ix = Ok res ->
  length res = length ix /\
  (forall i j p q, nth_error ix i = Some p -> nth_error ix j = Some q ->
     nth j (nth i res []) 0 = nth q (nth p M []) 0) /\
  (forall row, In row res -> length row = length ix).
Proof.
  unfold select2. intros H. mstep H. destruct (gather_nth _ _ _ Ha) as [Hla Hna].
  destruct (select2_fold _ _ _ _ H) as (l & -> & Hl & Hn). cbn [app].
  split; [lia|]. split.
  - intros i j p q Hi Hj. destruct (Hna _ _ Hi) as [Hr Hp].
    rewrite (nth_nth_error M p []) in Hr by exact Hp.
    destruct (Hn _ _ Hr) as (r & Hr1 & Hr2). rewrite (nth_error_nth _ _ _ Hr1).
    destruct (gather_nth _ _ _ Hr2) as [_ Hr3]. destruct (Hr3 _ _ Hj) as [Hq1 Hq2].
    rewrite (nth_nth_error _ q 0) in Hq1 by exact Hq2. rewrite (nth_error_nth _ _ _ Hq1). reflexivity.
  - intros row Hin. apply In_nth_error in Hin. destruct Hin as [i Hi].
    destruct (nth_error a i) as [row0|] eqn:E.
    + destruct (Hn _ _ E) as (r & Hr1 & Hr2). rewrite Hi in Hr1. injection Hr1 as <-.
      apply gather_length in Hr2. exact Hr2.
    + apply nth_error_None in E. assert (i < length l)%nat by (apply nth_error_Some; congruence). lia.
Qed.

Lemma select2_total n (M : list (list R)) ix : length M = n -> (forall row, In row M -> length row = n) ->
  (forall k, In k ix -> (k < n)%nat) -> exists res, select2 M ix = Ok res.
Proof.
  intros HM Hr Hk. unfold select2. destruct (gather_ok M ix) as [rows Hrows]; [intros; rewrite HM; auto|].
  rewrite Hrows. cbn [bind].
  assert (Hin : forall row, In row rows -> length row = n).
  { intros row Hin. apply In_nth_error in Hin. destruct Hin as [i Hi].
    destruct (gather_nth _ _ _ Hrows) as [Hl Hn]. destruct (nth_error ix i) as [p|] eqn:E.
    - destruct (Hn _ _ E) as [H1 _]. rewrite Hi in H1. symmetry in H1. apply nth_error_In in H1. auto.
    - apply nth_error_None in E. assert (i < length rows)%nat by (apply nth_error_Some; congruence). lia. }
  clear Hrows.
  assert (G : forall acc, exists res, foldM (fun acc row => r <- gather row ix ;; Ok (acc ++ [r])) rows acc = Ok res);
    [|apply G].
  induction rows as [|row rows IH]; intros acc; cbn [foldM]; eauto.
  destruct (gather_ok row ix) as [r Hr']; [intros k Hk'; rewrite (Hin row); auto; left; auto|].
  rewrite Hr'. cbn [bind]. apply IH. intros; apply Hin; right; auto.
Qed.

(** ** Model.stiffness *)
Lemma kent_zero (K : list (list (m3 R))) i j : kent (map (map (fun _ => mzero)) K) i j = mzero.
Proof.
  unfold kent. revert i. induction K as [|row K IH]; intros [|i]; cbn [map nth]; auto.
  - destruct j; auto.
  - destruct j; auto.
  - clear. revert j. induction row as [|b row IH]; intros [|j]; cbn; auto.
Qed.

Lemma prepared_K c V V0 (an an1 : analysis R) u lam : equil_prepare c StK V V0 an = Ok (an1, u, lam) ->
  a_K an1 = map (map (fun _ => mzero)) (a_K an).
Proof. unfold equil_prepare. intros H. mstep H. mstep H. injection H as <- <- <-. reflexivity. Qed.

Lemma stiffness_inv c ms u an an' Kred :
  truss_ok c ms -> sizes_ok c ms an -> stiffness c u an = Ok (an', Kred) ->
  exists an1 u' lam qs,
    equil_prepare c StK u u an = Ok (an1, u', lam) /\
    quants c (a_U an') (a_U0 an') (state_row c an) 0 ms qs /\
    an' = set_Kred Kred (loop_an StK c u' lam false (zipk 0 ms qs) an1) /\
    select2 (flat_K (a_K an')) (a_DOF1 an) = Ok Kred /\
    kdims (length (c_labels c)) (a_K an') /\
    (forall l l', In l (c_labels c) -> In l' (c_labels c) ->
       kent (a_K an') (idx l (c_labels c)) (idx l' (c_labels c))
       = msum (map (fun mq => mscale (sg (fst mq) l * sg (fst mq) l') (truss_KTEE (snd mq))) (combine ms qs))).
Proof.
  intros Hok Hsz H. unfold stiffness in H. mstep H. destruct a as [[an1 u'] lam]. mstep H.
  pose proof (prepare_sizes _ _ _ _ _ _ _ _ _ Hsz Ha) as Hsz1.
  destruct (elem_loop_inv _ _ _ _ _ _ _ _ Hok Hsz1 Ha0) as (qs & Hq & ->).
  mstep H. injection H as <- <-.
  exists an1, u', lam, qs. split; [exact Ha|].
  pose proof (loop_frame StK c u' lam false (zipk 0 ms qs) an1) as Hf. cbn zeta in Hf.
  destruct Hf as (E1 & E2 & _ & _ & _ & E3 & _).
  pose proof (prepare_frame _ _ _ _ _ _ _ _ Ha) as (P1 & P2 & _).
  pose proof (quants_length _ _ _ _ _ _ _ Hq) as Hlq.
  assert (Hin : forall m q, In (m, q) (combine ms qs) -> In m ms) by (intros m q Hx; apply in_combine_l in Hx; exact Hx).
  assert (HK1 : kdims (length (c_labels c)) (a_K an1)).
  { destruct Hsz1 as (_ & _ & _ & L1 & L2 & _). split; auto. }
  cbn [a_U a_U0 set_Kred a_K]. rewrite E1, E2, loop_K by exact Hlq.
  split; [eapply quants_ext; [|exact Hq]; intros j _; unfold state_row; rewrite P1; reflexivity|].
  split; [reflexivity|]. split; [rewrite E3, P2, loop_K in Ha1 by exact Hlq; exact Ha1|].
  split; [eapply k_fold_dims; eauto|].
  intros l l' Hl Hl'. rewrite (k_fold_ent c ms) by auto.
  rewrite (prepared_K _ _ _ _ _ _ _ Ha), kent_zero, madd_0_l. reflexivity.
Qed.

(** Symmetry. *)
Lemma mtr_msum l : mtr (msum l) = msum (map mtr l).
Proof.
  induction l as [|M l IH]; cbn [msum fold_right map]; [veq|].
  fold (msum l). fold (msum (map mtr l)). rewrite <- IH. generalize (msum l). veq.
Qed.

Lemma mtr_KTEE (q : truss_q (F:=R)) : mtr (truss_KTEE q) = truss_KTEE q.
Proof.
  unfold truss_KTEE. generalize (q_n q) as n. generalize (fdiv (q_N q) (q_l q)) as s1.
  generalize (fdiv (fmul (q_dsde q) (q_A q)) (q_L q)) as s2. veq.
Qed.

Lemma mtr_mscale s M : mtr (mscale s M) = mscale s (mtr M). Proof. veq. Qed.

Lemma mvec_madd A B t : mvec (madd A B) t = vadd (mvec A t) (mvec B t). Proof. veq. Qed.
Lemma mvec_mscale s A t : mvec (mscale s A) t = vscale s (mvec A t). Proof. veq. Qed.
Lemma mvec_mzero t : mvec mzero t = vzero. Proof. veq. Qed.

Lemma mvec_msum l t : mvec (msum l) t = vsum (map (fun M => mvec M t) l).
Proof.
  induction l as [|M l IH]; cbn [msum vsum fold_right map]; [apply mvec_mzero|].
  fold (msum l). fold (vsum (map (fun M => mvec M t) l)). rewrite mvec_madd, IH. reflexivity.
Qed.

Lemma vget_mtr M p q : (p < 3)%nat -> (q < 3)%nat -> vget (vget (mtr M) p) q = vget (vget M q) p.
Proof.
  intros. destruct p as [|[|[|]]], q as [|[|[|]]]; try lia; reflexivity.
Qed.

Lemma K_block_kent c K l l' : NoDup (c_labels c) -> kdims (length (c_labels c)) K ->
  In l (c_labels c) -> In l' (c_labels c) ->
  K_block c K l l' = kent K (idx l (c_labels c)) (idx l' (c_labels c)).
Proof.
  intros Hn HK Hl Hl'. unfold K_block, kent. rewrite (row_of_nth _ K) by (auto; apply HK).
  rewrite row_of_nth by (auto; eapply kdims_nth; eauto using idx_lt). reflexivity.
Qed.

Lemma stiffness_symmetric c ms u an an' Kred :
  truss_ok c ms -> sizes_ok c ms an -> stiffness c u an = Ok (an', Kred) ->
  (forall l l', In l (c_labels c) -> In l' (c_labels c) ->
     K_block c (a_K an') l l' = mtr (K_block c (a_K an') l' l)) /\
  (forall i j, (i < length (a_DOF1 an))%nat -> (j < length (a_DOF1 an))%nat ->
     nth j (nth i Kred []) 0 = nth i (nth j Kred []) 0) /\
  (forall l t, In l (c_labels c) ->
     vsum (map (fun l' => mvec (K_block c (a_K an') l l') t) (c_labels c)) = vzero).
Proof.
  intros Hok Hsz H.
  destruct (stiffness_inv _ _ _ _ _ _ Hok Hsz H) as (an1 & u' & lam & qs & _ & _ & _ & Hs & HK & He).
  assert (Hnd := proj1 Hok).
  assert (Hb : forall l l', In l (c_labels c) -> In l' (c_labels c) -> K_block c (a_K an') l l' =
     msum (map (fun mq => mscale (sg (fst mq) l * sg (fst mq) l') (truss_KTEE (snd mq))) (combine ms qs))).
  { intros. rewrite K_block_kent by auto. apply He; auto. }
  assert (Hsym : forall l l', In l (c_labels c) -> In l' (c_labels c) ->
     K_block c (a_K an') l l' = mtr (K_block c (a_K an') l' l)).
  { intros l l' Hl Hl'. rewrite !Hb by auto. rewrite mtr_msum, map_map. f_equal. apply map_ext.
    intros [m q]. cbn [fst snd]. rewrite mtr_mscale, mtr_KTEE, Rmult_comm. reflexivity. }
  split; [exact Hsym|]. split.
  - intros i j Hi Hj. destruct (select2_ent _ _ _ Hs) as (_ & Hent & _).
    pose proof (nth_nth_error (a_DOF1 an) i 0%nat Hi) as Ei.
    pose proof (nth_nth_error (a_DOF1 an) j 0%nat Hj) as Ej.
    rewrite (Hent _ _ _ _ Ei Ej), (Hent _ _ _ _ Ej Ei).
    set (p := nth i (a_DOF1 an) 0%nat) in *. set (q := nth j (a_DOF1 an) 0%nat) in *.
    destruct Hsz as (_ & _ & _ & _ & _ & _ & _ & _ & _ & HD & _).
    assert (Hp : (p < 3 * length (c_labels c))%nat) by (apply HD; eapply nth_error_In; eauto).
    assert (Hq : (q < 3 * length (c_labels c))%nat) by (apply HD; eapply nth_error_In; eauto).
    rewrite !(flat_K_ent (length (c_labels c))) by auto.
    assert (Hp3 : (p / 3 < length (c_labels c))%nat) by (apply Nat.div_lt_upper_bound; lia).
    assert (Hq3 : (q / 3 < length (c_labels c))%nat) by (apply Nat.div_lt_upper_bound; lia).
    pose proof (nth_nth_error (c_labels c) _ 0%Z Hp3) as Lp.
    pose proof (nth_nth_error (c_labels c) _ 0%Z Hq3) as Lq.
    rewrite <- (idx_of_nth _ _ _ Hnd Lp), <- (idx_of_nth _ _ _ Hnd Lq) at 1.
    rewrite <- (idx_of_nth _ _ _ Hnd Lp), <- (idx_of_nth _ _ _ Hnd Lq).
    assert (HLp : In (nth (p / 3) (c_labels c) 0%Z) (c_labels c)) by (eapply nth_error_In; eauto).
    assert (HLq : In (nth (q / 3) (c_labels c) 0%Z) (c_labels c)) by (eapply nth_error_In; eauto).
    rewrite !(idx_of_nth _ _ _ Hnd Lp), !(idx_of_nth _ _ _ Hnd Lq).
    pose proof (Hsym _ _ HLp HLq) as E. rewrite !K_block_kent in E by auto.
    rewrite !(idx_of_nth _ _ _ Hnd Lp), !(idx_of_nth _ _ _ Hnd Lq) in E.
    rewrite E. apply vget_mtr; apply Nat.mod_upper_bound; lia.
  - intros l t Hl.
    rewrite (vsum_map_ext _ (fun l' => vsum (map (fun mq => vscale (sg (fst mq) l * sg (fst mq) l') (mvec (truss_KTEE (snd mq)) t)) (combine ms qs)))).
    2:{ intros l' Hl'. rewrite Hb, mvec_msum, map_map by auto. apply vsum_map_ext. intros mq _. apply mvec_mscale. }
    rewrite vsum_swap. apply vsum_map_0. intros [m q] Hx. cbn [fst snd].
    assert (Hm : In m ms) by (apply in_combine_l in Hx; exact Hx).
    destruct Hok as (_ & _ & _ & _ & Hnodes). destruct (Hnodes m Hm) as (Ha & Hb' & Hab).
    rewrite (vsum_double _ _ (mb_a m) (mb_b m)); auto.
    + unfold sg at 2 4. rewrite !Z.eqb_refl. destruct (Z.eqb_spec (mb_a m) (mb_b m)); [contradiction|].
      generalize (mvec (truss_KTEE q) t). veq.
    + intros x H1 H2. unfold sg at 2. destruct (Z.eqb_spec x (mb_b m)); [contradiction|].
      destruct (Z.eqb_spec x (mb_a m)); [contradiction|]. generalize (mvec (truss_KTEE q) t). veq.
Qed.
