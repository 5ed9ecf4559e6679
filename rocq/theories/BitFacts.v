(** * Symmetry of the assembled stiffness, entry for entry, without algebraic laws *)
From Coq Require Import List ZArith Bool Arith Lia.
Import ListNotations.
From Verif Require Import Num Vec Handlers Material Analysis Truss Equil ListFacts SpecMech EquilFacts EvalFacts RecFacts.

Section Bits.
  Context {F : Type} `{NF : Num F}.
  Hypothesis mul_comm : forall a b : F, fmul a b = fmul b a.

  Definition tr3 (M : m3 F) : m3 F :=
    V3 (V3 (vx (vx M)) (vx (vy M)) (vx (vz M))) (V3 (vy (vx M)) (vy (vy M)) (vy (vz M))) (V3 (vz (vx M)) (vz (vy M)) (vz (vz M))).

  Lemma tr3_KTEE (q : truss_q (F:=F)) : tr3 (truss_KTEE q) = truss_KTEE q.
  Proof.
    unfold truss_KTEE, tr3, madd, msub, mscale, vouter, meye, vadd, vsub, vscale, vmap2, vmap. cbn [vx vy vz].
    rewrite (mul_comm (vy (q_n q)) (vx (q_n q))), (mul_comm (vz (q_n q)) (vx (q_n q))), (mul_comm (vz (q_n q)) (vy (q_n q))). reflexivity.
  Qed.
  Lemma tr3_neg M : tr3 (mneg M) = mneg (tr3 M).  Proof. reflexivity. Qed.
  Lemma tr3_add M N : tr3 (madd M N) = madd (tr3 M) (tr3 N).  Proof. reflexivity. Qed.
  Lemma vget_tr3 M p q : p < 3 -> q < 3 -> vget (vget (tr3 M) p) q = vget (vget M q) p.
  Proof. intros. destruct p as [|[|[|]]], q as [|[|[|]]]; try lia; reflexivity. Qed.

  Definition ent (K : list (list (m3 F))) (i j : nat) : m3 F := nth j (nth i K []) mzero.
  Definition symK (K : list (list (m3 F))) : Prop := forall i j, ent K i j = tr3 (ent K j i).

  Lemma ent_kadd n K a b M i j : kdims n K -> a < n -> b < n ->
    ent (kadd K a b M) i j = if (Nat.eqb i a && Nat.eqb j b)%bool then madd (ent K i j) M else ent K i j.
  Proof.
    intros HK Ha Hb. pose proof (kdims_nth _ _ _ HK Ha) as Hra. unfold ent, kadd.
    rewrite nth_set_nth. destruct HK as [Hl _].
    destruct (Nat.ltb_spec a (length K)); [|lia]. rewrite andb_true_r.
    destruct (Nat.eqb_spec i a) as [->|]; [|reflexivity]. cbn [andb].
    rewrite nth_set_nth. destruct (Nat.ltb_spec b (length (nth a K []))); [|lia].
    rewrite andb_true_r. destruct (Nat.eqb_spec j b) as [->|]; reflexivity.
  Qed.

  Lemma member_sym c ms K m q : truss_ok c ms -> In m ms -> kdims (length (c_labels c)) K -> symK K ->
    kdims (length (c_labels c)) (k_member c K (m, q)) /\ symK (k_member c K (m, q)).
  Proof.
    intros (_ & _ & _ & _ & Hnodes) Hm HK HS. destruct (Hnodes m Hm) as (Ha & Hb & _).
    apply idx_lt in Ha. apply idx_lt in Hb. unfold k_member. cbn [fst snd].
    split; [repeat (apply kdims_kadd; auto)|]. intros i j.
    set (a := idx (mb_a m) (c_labels c)) in *. set (b := idx (mb_b m) (c_labels c)) in *.
    rewrite !(ent_kadd (length (c_labels c))) by (auto; repeat (apply kdims_kadd; auto)).
    pose proof (HS i j) as E. pose proof (tr3_KTEE q) as T. set (M := truss_KTEE q) in *.
    assert (TN : tr3 (mneg M) = mneg M) by now rewrite tr3_neg, T.
    destruct (Nat.eqb_spec i a), (Nat.eqb_spec j a), (Nat.eqb_spec i b), (Nat.eqb_spec j b); cbn [andb];
      rewrite ?tr3_add, ?T, ?TN, <- E; reflexivity.
  Qed.

  Lemma fold_sym c ms : truss_ok c ms -> forall mqs K, (forall m q, In (m, q) mqs -> In m ms) ->
    kdims (length (c_labels c)) K -> symK K ->
    kdims (length (c_labels c)) (fold_left (k_member c) mqs K) /\ symK (fold_left (k_member c) mqs K).
  Proof.
    intros Hok. induction mqs as [|[m q] mqs IH]; intros K Hin HK HS; cbn [fold_left]; auto.
    destruct (member_sym c ms K m q Hok) as [H1 H2]; auto; [eapply Hin; left; reflexivity|].
    apply IH; auto. intros; eapply Hin; right; eauto.
  Qed.

  Definition frow (row : list (m3 F)) : v3 (list F) := V3 (vflat (map vx row)) (vflat (map vy row)) (vflat (map vz row)).
  Lemma flat_K_frow (K : list (list (m3 F))) : flat_K K = vflat (map frow K).
  Proof.
    unfold flat_K, vflat at 1. induction K as [|row K IH]; cbn [flat_map map]; auto.
    rewrite IH. f_equal. unfold frow, vlist, vflat. cbn [vx vy vz].
    assert (E : forall (f : m3 F -> v3 F), flat_map (fun b => vlist (f b)) row = flat_map vlist (map f row)).
    { intros f. clear. induction row as [|b row IH]; cbn [flat_map map]; auto. rewrite IH. reflexivity. }
    unfold vlist in E. rewrite !E. reflexivity.
  Qed.

  Lemma flat_ent n K p q : kdims n K -> p < 3 * n -> q < 3 * n ->
    nth q (nth p (flat_K K) []) f0 = vget (vget (ent K (p / 3) (q / 3)) (p mod 3)) (q mod 3).
  Proof.
    intros HK Hp Hq. assert (Hp3 : p / 3 < n) by (apply Nat.div_lt_upper_bound; lia).
    assert (Hq3 : q / 3 < n) by (apply Nat.div_lt_upper_bound; lia).
    pose proof (kdims_nth _ _ _ HK Hp3) as Hrow. destruct HK as [Hl _].
    rewrite flat_K_frow.
    assert (E1 : nth_error (vflat (map frow K)) p = Some (vget (frow (nth (p / 3) K [])) (p mod 3))).
    { rewrite nth_error_vflat, nth_error_map, (nth_nth_error K (p / 3) []) by lia. reflexivity. }
    rewrite (nth_error_nth _ _ _ E1).
    assert (E2 : vget (frow (nth (p / 3) K [])) (p mod 3) = vflat (map (fun b => vget b (p mod 3)) (nth (p / 3) K []))).
    { unfold frow. pose proof (Nat.mod_upper_bound p 3 ltac:(lia)).
      destruct (p mod 3) as [|[|[|]]]; [reflexivity|reflexivity|reflexivity|lia]. }
    rewrite E2.
    assert (E3 : nth_error (vflat (map (fun b => vget b (p mod 3)) (nth (p / 3) K []))) q
       = Some (vget (vget (ent K (p / 3) (q / 3)) (p mod 3)) (q mod 3))).
    { rewrite nth_error_vflat, nth_error_map. pose proof (nth_nth_error (nth (p / 3) K []) (q / 3) mzero ltac:(lia)) as E. unfold m3 in *. rewrite E. reflexivity. }
    rewrite (nth_error_nth _ _ _ E3). reflexivity.
  Qed.

  Lemma sel_fold (rows : list (list F)) ix : forall acc res,
    foldM (fun acc row => r <- gather row ix ;; Ok (acc ++ [r])) rows acc = Ok res ->
    exists l, res = acc ++ l /\ length l = length rows /\
      forall i row, nth_error rows i = Some row -> exists r, nth_error l i = Some r /\ gather row ix = Ok r.
  Proof.
    induction rows as [|row rows IH]; intros acc res H; cbn [foldM] in H.
    - injection H as <-. exists []. rewrite app_nil_r. repeat split; auto. intros [|i] row H; discriminate.
    - mstep H. mstep Ha. injection Ha as <-. destruct (IH _ _ H) as (l & -> & Hl & Hn).
      exists (a0 :: l). rewrite <- app_assoc. repeat split; cbn; auto.
      intros [|i] row' Hi; cbn in Hi |- *; [injection Hi as <-; exists a0; auto|exact (Hn _ _ Hi)].
  Qed.

  Lemma sel_ent (M : list (list F)) ix res : select2 M ix = Ok res ->
    forall i j p q, nth_error ix i = Some p -> nth_error ix j = Some q -> nth j (nth i res []) f0 = nth q (nth p M []) f0.
  Proof.
    unfold select2. intros H. mstep H. destruct (gather_nth _ _ _ Ha) as [Hla Hna].
    destruct (sel_fold _ _ _ _ H) as (l & -> & Hl & Hn). cbn [app].
    intros i j p q Hi Hj. destruct (Hna _ _ Hi) as [Hr Hp].
    rewrite (nth_nth_error M p []) in Hr by exact Hp.
    destruct (Hn _ _ Hr) as (r & Hr1 & Hr2). rewrite (nth_error_nth _ _ _ Hr1).
    destruct (gather_nth _ _ _ Hr2) as [_ Hr3]. destruct (Hr3 _ _ Hj) as [Hq1 Hq2].
    rewrite (nth_nth_error _ q f0) in Hq1 by exact Hq2. rewrite (nth_error_nth _ _ _ Hq1). reflexivity.
  Qed.

  Lemma ent_zero (K : list (list (m3 F))) i j : ent (map (map (fun _ => mzero)) K) i j = mzero.
  Proof.
    unfold ent. revert i. induction K as [|row K IH]; intros [|i]; cbn [map nth]; auto.
    - destruct j; auto.
    - destruct j; auto.
    - clear. revert j. induction row as [|b row IH]; intros [|j]; cbn; auto.
  Qed.

  Lemma stiffness_bits c ms u an an' Kred :
    truss_ok c ms -> sizes_ok c ms an -> stiffness c u an = Ok (an', Kred) ->
    forall i j, i < length (a_DOF1 an) -> j < length (a_DOF1 an) ->
      nth j (nth i Kred []) f0 = nth i (nth j Kred []) f0.
  Proof.
    intros Hok Hsz H i j Hi Hj. unfold stiffness in H. mstep H. destruct a as [[an1 u'] lam]. mstep H.
    pose proof (gprepare_sizes _ _ _ _ _ _ _ _ _ Hsz Ha) as Hsz1.
    destruct (elem_loop_inv _ _ _ _ _ _ _ _ Hok Hsz1 Ha0) as (qs & Hq & ->).
    mstep H. injection H as _ <-.
    pose proof (loop_frame StK c u' lam false (zipk 0 ms qs) an1) as Hf. cbn zeta in Hf.
    destruct Hf as (E1 & E2 & _ & _ & _ & E3 & _).
    pose proof (gprepare_frame _ _ _ _ _ _ _ _ Ha) as (P1 & P2 & _).
    pose proof (quants_length _ _ _ _ _ _ _ Hq) as Hlq.
    rewrite E3, P2, loop_K in Ha1 by exact Hlq.
    assert (EK : a_K an1 = map (map (fun _ => mzero)) (a_K an)).
    { unfold equil_prepare in Ha. mstep Ha. mstep Ha. injection Ha as <- _ _. reflexivity. }
    destruct (fold_sym c ms Hok (combine ms qs) (a_K an1)) as [HK HS].
    { intros m q Hx. now apply in_combine_l in Hx. }
    { destruct Hsz1 as (_ & _ & _ & L1 & L2 & _). split; auto. }
    { intros p q. rewrite EK, !ent_zero. reflexivity. }
    set (K := fold_left (k_member c) (combine ms qs) (a_K an1)) in *.
    pose proof (nth_nth_error (a_DOF1 an) i 0 Hi) as Ei. pose proof (nth_nth_error (a_DOF1 an) j 0 Hj) as Ej.
    rewrite (sel_ent _ _ _ Ha1 _ _ _ _ Ei Ej), (sel_ent _ _ _ Ha1 _ _ _ _ Ej Ei).
    set (p := nth i (a_DOF1 an) 0) in *. set (q := nth j (a_DOF1 an) 0) in *.
    destruct Hsz as (_ & _ & _ & _ & _ & _ & _ & _ & _ & HD & _).
    assert (Hp : p < 3 * length (c_labels c)) by (apply HD; eapply nth_error_In; eauto).
    assert (Hq' : q < 3 * length (c_labels c)) by (apply HD; eapply nth_error_In; eauto).
    rewrite !(flat_ent (length (c_labels c))) by auto.
    rewrite (HS (p / 3) (q / 3)). apply vget_tr3; apply Nat.mod_upper_bound; lia.
  Qed.
End Bits.
