(** * Lists and vectors put in another order *)
From Coq Require Import List ZArith Bool Arith Lia Permutation Reals.
Import ListNotations.
From Verif Require Import Num NumR Vec Handlers Analysis Equil ListFacts SpecNumber.

Definition within (n : nat) (p : list nat) : Prop := Forall (fun i => i < n) p.

Section Pick.
  Context {A : Type}.
  Implicit Types (p q : list nat) (l : list A).

  Lemma pick_nil p : pick p (@nil A) = [].
  Proof. induction p as [|[|i] p IH]; cbn; auto. Qed.
  Lemma pick_cons i p l : pick (i :: p) l = (match nth_error l i with Some x => [x] | None => [] end) ++ pick p l.
  Proof. reflexivity. Qed.
  Lemma pick_app p q l : pick (p ++ q) l = pick p l ++ pick q l.
  Proof. unfold pick. apply flat_map_app. Qed.
  Lemma pick_length p l : within (length l) p -> length (pick p l) = length p.
  Proof.
    induction 1 as [|i p Hi H IH]; [reflexivity|]. rewrite pick_cons. destruct (nth_error l i) eqn:E; [cbn; lia|]. apply nth_error_None in E. lia.
  Qed.
  Lemma nth_pick p l k : within (length l) p -> nth_error (pick p l) k = match nth_error p k with Some i => nth_error l i | None => None end.
  Proof.
    intros H. revert k. induction H as [|i p Hi H IH]; intros k; [destruct k; reflexivity|]. rewrite pick_cons.
    destruct (nth_error l i) eqn:E; [|apply nth_error_None in E; lia]. destruct k as [|k]; cbn; [auto|apply IH].
  Qed.
  Lemma pick_all l : pick (seq 0 (length l)) l = l.
  Proof.
    assert (W : within (length l) (seq 0 (length l))) by (apply Forall_forall; intros i Hi; apply in_seq in Hi; lia).
    apply nth_error_ext. intros k. rewrite nth_pick by exact W.
    destruct (Nat.ltb_spec k (length l)) as [H|H].
    - rewrite (nth_error_nth' _ 0) by (rewrite seq_length; exact H). rewrite seq_nth by exact H. reflexivity.
    - rewrite (proj2 (nth_error_None (seq 0 (length l)) k)) by (rewrite seq_length; lia). symmetry. apply nth_error_None. lia.
  Qed.
  Lemma order_length n p : order n p -> length p = n.
  Proof. intros H. apply Permutation_length in H. rewrite seq_length in H. exact H. Qed.
  Lemma order_within n p : order n p -> within n p.
  Proof. intros H. apply Forall_forall. intros i Hi. eapply Permutation_in in Hi; [|exact H]. apply in_seq in Hi. lia. Qed.
  Lemma order_NoDup n p : order n p -> NoDup p.
  Proof. intros H. eapply Permutation_NoDup; [apply Permutation_sym, H|apply seq_NoDup]. Qed.
  Lemma order_at n p i : order n p -> i < n -> exists k, nth_error p k = Some i.
  Proof. intros H Hi. apply In_nth_error. eapply Permutation_in; [apply Permutation_sym, H|]. apply in_seq. lia. Qed.
  Lemma pick_perm p l : order (length l) p -> Permutation (pick p l) l.
  Proof.
    intros H. rewrite <- (pick_all l) at 2. unfold pick. apply Permutation_flat_map, H.
  Qed.
  Lemma pick_repeat p (x : A) n : within n p -> pick p (repeat x n) = repeat x (length p).
  Proof.
    induction 1 as [|i p Hi H IH]; [reflexivity|]. rewrite pick_cons, IH. rewrite nth_error_repeat. destruct (Nat.ltb_spec i n); [reflexivity|lia].
  Qed.
  Lemma pick_snoc p n l (x : A) : within n p -> length l = n -> pick (p ++ [n]) (l ++ [x]) = pick p l ++ [x].
  Proof.
    intros H Hl. rewrite pick_app. f_equal.
    - induction H as [|i p Hi H IH]; [reflexivity|]. rewrite !pick_cons, IH, nth_error_app1 by lia. reflexivity.
    - rewrite pick_cons, nth_error_app2, Hl, Nat.sub_diag by lia. reflexivity.
  Qed.
  Lemma pick_front p n l : within n p -> length l <= n -> pick (p ++ [n]) l = pick p l.
  Proof. intros _ Hl. rewrite pick_app, pick_cons, (proj2 (nth_error_None l n)) by lia. apply app_nil_r. Qed.
  Lemma pick_set_nth p l k i (v : A) : within (length l) p -> NoDup p -> nth_error p k = Some i ->
    pick p (set_nth i v l) = set_nth k v (pick p l).
  Proof.
    intros H Hn Hk. apply nth_error_ext. intros m. rewrite nth_error_set_nth, pick_length, !nth_pick by (rewrite ?set_nth_length; exact H).
    assert (k < length p) by (apply nth_error_Some; congruence). destruct (Nat.ltb_spec k (length p)); [|lia]. rewrite andb_true_r.
    destruct (Nat.eqb_spec m k) as [->|Hm].
    - rewrite Hk. apply nth_error_set_nth_eq. unfold within in H. rewrite Forall_forall in H. apply H. eapply nth_error_In, Hk.
    - destruct (nth_error p m) as [j|] eqn:E; [|reflexivity]. apply nth_error_set_nth_neq. intros ->. apply Hm. eapply NoDup_nth_inj; eauto.
  Qed.
  Lemma pick_Forall (P : A -> Prop) p l : Forall P l -> Forall P (pick p l).
  Proof.
    intros H. induction p as [|i p IH]; [constructor|]. rewrite pick_cons. apply Forall_app. split; [|exact IH].
    destruct (nth_error l i) eqn:E; constructor; [|constructor]. rewrite Forall_forall in H. apply H. eapply nth_error_In, E.
  Qed.
End Pick.

Lemma pick_pick {A} p q (l : list A) : within (length l) p -> pick q (pick p l) = pick (pick q p) l.
  Proof.
    intros H. induction q as [|i q IH]; [reflexivity|]. rewrite !pick_cons, IH, nth_pick by exact H.
    destruct (nth_error p i) as [j|]; [|reflexivity]. cbn [app]. rewrite pick_cons. reflexivity.
  Qed.

Lemma pick_map {A B} (f : A -> B) p l : pick p (map f l) = map f (pick p l).
Proof. induction p as [|i p IH]; [reflexivity|]. rewrite !pick_cons, map_app, IH, nth_error_map. destruct (nth_error l i); reflexivity. Qed.
Lemma pick_map2 {A B C} (f : A -> B -> C) p l1 l2 : length l1 = length l2 -> pick p (map2 f l1 l2) = map2 f (pick p l1) (pick p l2).
Proof.
  intros H. induction p as [|i p IH]; [reflexivity|]. rewrite !pick_cons, IH, nth_error_map2.
  destruct (nth_error l1 i) eqn:E1, (nth_error l2 i) eqn:E2; cbn [app map2]; try reflexivity; exfalso;
    [apply nth_error_None in E2|apply nth_error_None in E1]; [assert (i < length l1) by (apply nth_error_Some; congruence)|assert (i < length l2) by (apply nth_error_Some; congruence)]; lia.
Qed.
Lemma gather_pick {A} (l : list A) D x : gather l D = Ok x <-> within (length l) D /\ x = pick D l.
Proof.
  revert x. induction D as [|i D IH]; intros x; cbn [gather].
  - split; [intros H; injection H as <-; split; [constructor|reflexivity]|intros [_ ->]; reflexivity].
  - rewrite pick_cons. destruct (nth_error l i) as [v|] eqn:E.
    + split.
      * intros H. apply bind_ok in H. destruct H as (xs & Hx & H). apply IH in Hx. destruct Hx as [W ->]. injection H as <-. split; [|reflexivity].
        constructor; [|exact W]. apply nth_error_Some. congruence.
      * intros [W ->]. inversion W; subst. rewrite (proj2 (IH (pick D l))) by auto. reflexivity.
    + split; [discriminate|]. intros [W _]. inversion W; subst. apply nth_error_None in E. lia.
Qed.
Lemma py_get_pick {A} n p (l : list A) k i v : order n p -> length l = n -> nth_error p k = Some i -> py_get l (Z.of_nat i) = Ok v -> py_get (pick p l) (Z.of_nat k) = Ok v.
Proof.
  intros Hp Hl Hk H. pose proof (order_within _ _ Hp) as W. rewrite <- Hl in W. apply py_get_nth in H. destruct H as (m & Hm & H). apply py_get_nth. exists k.
  assert (k < length p) by (apply nth_error_Some; congruence). rewrite pick_length by exact W. split.
  - unfold py_pos. destruct (Z.leb_spec 0 (Z.of_nat k)); [|lia]. destruct (Z.ltb_spec (Z.of_nat k) (Z.of_nat (length p))); [|lia]. cbn. f_equal. lia.
  - rewrite nth_pick, Hk by exact W. unfold py_pos in Hm. destruct (Z.leb_spec 0 (Z.of_nat i)); [|lia]. destruct (Z.ltb_spec (Z.of_nat i) (Z.of_nat (length l))); cbn in Hm.
    + injection Hm as <-. rewrite Nat2Z.id in H. exact H.
    + destruct ((_ <=? _) && _)%Z in Hm; [|discriminate]. injection Hm as <-. assert (i < length l); [|lia].
      unfold within in W. rewrite Forall_forall in W. apply W. eapply nth_error_In, Hk.
Qed.

(** ** Axes and components *)
Section Axes.
  Variable ax : v3 nat.
  Hypothesis Hax : axes ax.
  Notation turn := (turn ax).
  Notation turn_block := (turn_block ax).
  Notation turn_row := (turn_row ax).
  Notation comps := (comps ax).

  Lemma axes_cases : ax = V3 0 1 2 \/ ax = V3 0 2 1 \/ ax = V3 1 0 2 \/ ax = V3 1 2 0 \/ ax = V3 2 0 1 \/ ax = V3 2 1 0.
  Proof.
    destruct ax as [a b c]. unfold axes, vlist in Hax. cbn in Hax.
    assert (Hin : forall i, In i [a; b; c] -> i = 0 \/ i = 1 \/ i = 2).
    { intros i Hi. eapply Permutation_in in Hi; [|exact Hax]. cbn in Hi. intuition. }
    pose proof (Permutation_NoDup (Permutation_sym Hax) ltac:(repeat constructor; cbn; intuition discriminate)) as Hn.
    destruct (Hin a) as [->|[->| ->]]; [cbn; auto| | |]; destruct (Hin b) as [->|[->| ->]]; try (cbn; auto; fail); destruct (Hin c) as [->|[->| ->]]; try (cbn; auto; fail);
      try (exfalso; inversion Hn as [|? ? N1 N2]; inversion N2 as [|? ? N3 N4]; cbn in *; intuition; fail); auto 10.
  Qed.
  Lemma axes_lt : vx ax < 3 /\ vy ax < 3 /\ vz ax < 3.
  Proof. destruct axes_cases as [->|[->|[->|[->|[->| ->]]]]]; cbn; lia. Qed.

  Lemma comps_app p q : comps (p ++ q) = comps p ++ comps q.
  Proof. unfold comps. apply flat_map_app. Qed.
  Lemma comps_length p : length (comps p) = 3 * length p.
  Proof. unfold comps. induction p as [|i p IH]; cbn [flat_map]; [reflexivity|]. rewrite app_length, IH. cbn. lia. Qed.
  Lemma comps_order n p : order n p -> order (3 * n) (comps p).
  Proof.
    intros H. unfold order, comps in *. rewrite (Permutation_flat_map _ H). clear H p.
    assert (G : forall k s, Permutation (flat_map (fun i => [3 * i + vx ax; 3 * i + vy ax; 3 * i + vz ax]) (seq s k)) (seq (3 * s) (3 * k))).
    { induction k as [|k IH]; intros s; [reflexivity|]. cbn [seq flat_map]. rewrite (IH (S s)). replace (3 * S k) with (3 + 3 * k) by lia. rewrite seq_app.
      apply Permutation_app; [|replace (3 * s + 3) with (3 * S s) by lia; reflexivity].
      change [3 * s + vx ax; 3 * s + vy ax; 3 * s + vz ax] with (map (fun c => 3 * s + c) (vlist ax)).
      rewrite (Permutation_map _ Hax). cbn [map seq]. rewrite Nat.add_0_r, Nat.add_1_r. replace (3 * s + 2) with (S (S (3 * s))) by lia. reflexivity. }
    apply (G n 0).
  Qed.

  Lemma vflat_turn {A} sg (U : list (v3 A)) : vflat (map turn (pick sg U)) = pick (comps sg) (vflat U).
  Proof.
    destruct axes_lt as (H1 & H2 & H3). induction sg as [|i sg IH]; [reflexivity|]. cbn [SpecNumber.comps flat_map]. fold (comps sg).
    rewrite pick_app, <- IH, pick_cons, map_app. unfold vflat at 1. rewrite flat_map_app. f_equal. unfold pick. cbn [flat_map].
    destruct (nth_error U i) as [u|] eqn:E.
    - rewrite !(vflat_nth3 U i _ u) by assumption. reflexivity.
    - rewrite !(proj2 (nth_error_None (vflat U) _)); [reflexivity|..]; rewrite vflat_length; apply nth_error_None in E; lia.
  Qed.
  Lemma turn_row3 {A} (v : v3 A) : turn_row (vlist v) = vlist (turn v).
  Proof. destruct axes_cases as [->|[->|[->|[->|[->| ->]]]]]; reflexivity. Qed.
  Lemma rows_v3 {A} (rows : list (list A)) : Forall (fun r => length r = 3) rows -> exists vs, rows = map vlist vs.
  Proof.
    induction 1 as [|r rows Hr H [vs IH]]; [exists []; reflexivity|]. destruct r as [|a [|b [|c [|]]]]; try discriminate Hr. exists (V3 a b c :: vs). cbn. rewrite IH. reflexivity.
  Qed.
  Lemma concat_vlist {A} (vs : list (v3 A)) : concat (map vlist vs) = vflat vs.
  Proof. symmetry. unfold vflat. apply flat_map_concat_map. Qed.
  Lemma concat_turn {A} sg (rows : list (list A)) : Forall (fun r => length r = 3) rows ->
    concat (map turn_row (pick sg rows)) = pick (comps sg) (concat rows).
  Proof.
    intros H. destruct (rows_v3 _ H) as [vs ->]. rewrite pick_map, concat_vlist, <- vflat_turn, <- concat_vlist, !map_map. f_equal. apply map_ext. intros v. apply turn_row3.
  Qed.
  Lemma comps_seq_within k : within (3 * k) (comps (seq 0 k)).
  Proof. apply order_within, comps_order. unfold order. reflexivity. Qed.
  Lemma turn_row_length {A} (r : list A) : length r mod 3 = 0 -> length (turn_row r) = length r.
  Proof.
    intros H. unfold turn_row. assert (E : length r = 3 * (length r / 3)) by (pose proof (Nat.div_mod (length r) 3); lia).
    rewrite pick_length; [rewrite comps_length, seq_length; lia|]. rewrite E at 1. apply comps_seq_within.
  Qed.
  Lemma turn_row_repeat {A} (x : A) k : k mod 3 = 0 -> turn_row (repeat x k) = repeat x k.
  Proof.
    intros H. unfold turn_row. rewrite repeat_length. assert (E : k = 3 * (k / 3)) by (pose proof (Nat.div_mod k 3); lia).
    rewrite pick_repeat; [rewrite comps_length, seq_length, <- E; reflexivity|]. rewrite E at 1. apply comps_seq_within.
  Qed.
  Lemma turn_row_map {A B} (f : A -> B) r : turn_row (map f r) = map f (turn_row r).
  Proof. unfold turn_row. rewrite map_length. apply pick_map. Qed.
  Lemma turn_row_map2 {A B C} (f : A -> B -> C) r s : length r = length s -> turn_row (map2 f r s) = map2 f (turn_row r) (turn_row s).
  Proof. intros H. unfold turn_row. rewrite map2_length, <- H, Nat.min_id. apply pick_map2, H. Qed.

  (** Three columns of a row. *)
  Lemma turn_row_block {A} s (r : list A) : length r mod 3 = 0 -> firstn 3 (skipn (3 * s) (turn_row r)) = turn_row (firstn 3 (skipn (3 * s) r)).
  Proof.
    intros H. apply Nat.mod_divides in H; [|lia]. destruct H as [k Hk]. unfold turn_row at 1. rewrite Hk, (Nat.mul_comm 3 k), Nat.div_mul by lia.
    destruct (Nat.ltb_spec s k) as [Hs|Hs].
    - assert (E : exists vs, r = vflat vs /\ length vs = k).
      { clear - Hk. revert r Hk. induction k as [|k IH]; intros r Hk; [exists []; destruct r; [auto|discriminate]|].
        destruct r as [|a [|b [|c r]]]; cbn in Hk; try lia. destruct (IH r ltac:(lia)) as (vs & -> & L). exists (V3 a b c :: vs). split; [reflexivity|cbn; lia]. }
      destruct E as (vs & -> & Lv).
      assert (S3 : forall ws : list (v3 A), forall i, firstn 3 (skipn (3 * i) (vflat ws)) = match nth_error ws i with Some v => vlist v | None => [] end).
      { induction ws as [|w ws IH]; intros i; [destruct i; reflexivity|]. destruct i as [|i].
        - destruct w; reflexivity.
        - replace (3 * S i) with (3 + 3 * i) by lia. cbn [nth_error]. rewrite <- IH. destruct w; reflexivity. }
      rewrite <- vflat_turn. rewrite !S3. rewrite nth_error_map. rewrite <- Lv, pick_all. destruct (nth_error vs s); [|reflexivity]. cbn [option_map]. symmetry. apply turn_row3.
    - rewrite (skipn_all2 r) by lia. rewrite skipn_all2; [reflexivity|]. rewrite pick_length; [rewrite comps_length, seq_length; lia|]. rewrite Hk. apply comps_seq_within.
  Qed.

  (** ** Stiffness blocks as one matrix *)
  Definition kr (row : list (m3 R)) : v3 (list R) := V3 (vflat (map vx row)) (vflat (map vy row)) (vflat (map vz row)).
  Lemma flat_K_vflat K : flat_K K = vflat (map kr K).
  Proof.
    assert (E : forall (f : m3 R -> v3 R) (row : list (m3 R)), flat_map (fun b => vlist (f b)) row = vflat (map f row)).
    { intros f row. unfold vflat. rewrite !flat_map_concat_map, map_map. reflexivity. }
    unfold flat_K. induction K as [|row K IH]; [reflexivity|]. cbn [flat_map map]. rewrite IH, !E. reflexivity.
  Qed.
  Lemma kr_turn sg row : kr (map turn_block (pick sg row)) = vmap (pick (comps sg)) (turn (kr row)).
  Proof.
    assert (E : forall c, vflat (map (fun M => turn (vget M c)) (pick sg row)) = pick (comps sg) (vflat (map (fun M : m3 R => vget M c) row))).
    { intros c. rewrite <- vflat_turn, pick_map, map_map. reflexivity. }
    unfold kr. rewrite !map_map.
    destruct axes_cases as [E0|[E0|[E0|[E0|[E0|E0]]]]]; rewrite E0 in *; cbn [SpecNumber.turn_block SpecNumber.turn vmap vget vx vy vz] in *; unfold vmap; cbn [vx vy vz];
      f_equal; first [apply (E 0)|apply (E 1)|apply (E 2)].
  Qed.
  Lemma flat_K_turn sg K : flat_K (map (fun row => map turn_block (pick sg row)) (pick sg K)) = map (pick (comps sg)) (pick (comps sg) (flat_K K)).
  Proof.
    rewrite !flat_K_vflat, map_map. rewrite (map_ext _ _ (kr_turn sg)). rewrite <- vflat_turn, pick_map, map_map.
    generalize (pick sg K). induction l as [|row l IH]; [reflexivity|]. cbn [map]. unfold vflat in *. cbn [flat_map]. rewrite map_app, <- IH. reflexivity.
  Qed.

  (** ** Writing components *)
  Lemma scatter_turn {A} n sg p D1 D1' (x : list (v3 A)) y x1 : order n sg -> unknown_order ax sg p D1 D1' -> NoDup D1 -> within (3 * n) D1' -> length D1' = length D1 ->
    length x = n -> length y = length D1 ->
    scatter x D1 y = Ok x1 -> scatter (map turn (pick sg x)) D1' (pick p y) = Ok (map turn (pick sg x1)).
  Proof.
    intros Hs [Hp Hu] HN HW' HL' Hx Hy H. pose proof (comps_order _ _ Hs) as Hc. pose proof (order_within _ _ Hc) as Wc. pose proof (order_NoDup _ _ Hc) as Nc.
    pose proof (order_length _ _ Hc) as Lc. pose proof (order_within _ _ Hp) as Wp. pose proof (order_length _ _ Hs) as Ls.
    assert (Lx1 : length x1 = n) by (rewrite (scatter_length _ _ _ _ H); exact Hx).
    assert (Lx' : length (map turn (pick sg x)) = n). { rewrite map_length, pick_length; [exact Ls|]. rewrite Hx. apply order_within, Hs. }
    assert (Ly' : length (pick p y) = length D1'). { rewrite pick_length by (rewrite Hy; exact Wp). rewrite (order_length _ _ Hp). auto. }
    assert (Wd : within (length (comps sg)) D1') by (rewrite Lc; exact HW').
    assert (HN' : NoDup D1').
    { apply (NoDup_map_inv (fun q => nth q (comps sg) 0)). 
      assert (E : map (fun q => nth q (comps sg) 0) D1' = pick D1' (comps sg)).
      { clear - Wd. induction Wd as [|i D Hi W IH]; [reflexivity|]. rewrite pick_cons. cbn [map]. rewrite IH, (nth_error_nth' _ 0 Hi). reflexivity. }
      rewrite E, Hu. eapply Permutation_NoDup; [apply Permutation_sym, pick_perm, Hp|exact HN]. }
    destruct (scatter_total (map turn (pick sg x)) D1' (pick p y)) as [z Hz]; [|exact Ly'|].
    { intros k Hk. rewrite Lx'. unfold within in HW'. rewrite Forall_forall in HW'. auto. }
    rewrite Hz. f_equal. apply vflat_inj.
    destruct (scatter_ok _ _ _ _ HN' Ly' Hz) as (_ & F1 & F2). destruct (scatter_ok _ _ _ _ HN Hy H) as (_ & G1 & G2).
    apply nth_error_ext. intros q. rewrite vflat_turn, nth_pick by (rewrite vflat_length, Lx1; exact Wc).
    destruct (in_dec Nat.eq_dec q D1') as [Hq|Hq].
    - apply In_nth_error in Hq. destruct Hq as [m Hm]. rewrite (F2 _ _ Hm), nth_pick by (rewrite Hy; exact Wp).
      pose proof (f_equal (fun l => nth_error l m) Hu) as E. cbn beta in E. rewrite !nth_pick, Hm in E by assumption.
      destruct (nth_error p m) as [k|] eqn:Ek.
      2:{ exfalso. apply nth_error_None in Ek. rewrite (order_length _ _ Hp) in Ek. assert (m < length D1') by (apply nth_error_Some; congruence). lia. }
      rewrite E. assert (Hk : k < length D1). { unfold within in Wp. rewrite Forall_forall in Wp. apply Wp. eapply nth_error_In, Ek. }
      destruct (nth_error D1 k) as [d|] eqn:Ed; [|apply nth_error_None in Ed; lia]. symmetry. apply (G2 _ _ Ed).
    - rewrite (F1 _ Hq), vflat_turn, nth_pick by (rewrite vflat_length, Hx; exact Wc).
      destruct (nth_error (comps sg) q) as [d|] eqn:Ed; [|reflexivity]. symmetry. apply G1. intros Hd. apply Hq.
      assert (Hin : In d (pick p D1)). { eapply Permutation_in; [apply Permutation_sym, pick_perm, Hp|exact Hd]. }
      rewrite <- Hu in Hin. apply In_nth_error in Hin. destruct Hin as [m Hm]. rewrite nth_pick in Hm by exact Wd.
      destruct (nth_error D1' m) as [q2|] eqn:Eq; [|discriminate]. rewrite (NoDup_nth_inj _ _ _ _ Nc Ed Hm). eapply nth_error_In, Eq.
  Qed.

  (** ** Reading components *)
  Lemma gather_turn {A} n sg p D1 D1' (l x : list A) : order n sg -> unknown_order ax sg p D1 D1' -> within (3 * n) D1' -> length l = 3 * n ->
    gather l D1 = Ok x -> gather (pick (comps sg) l) D1' = Ok (pick p x).
  Proof.
    intros Hs [Hp Hu] HW Hl H. apply gather_pick in H. destruct H as [W ->]. pose proof (comps_order _ _ Hs) as Hc. pose proof (order_within _ _ Hc) as Wc. rewrite <- Hl in Wc.
    apply gather_pick. rewrite pick_length, (order_length _ _ Hc) by exact Wc. split; [exact HW|]. rewrite !pick_pick by assumption. rewrite Hu. reflexivity.
  Qed.
End Axes.
