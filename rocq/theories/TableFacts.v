(** * The printed tables: rows of Newton, cycles, increments, paths *)
From Coq Require Import List ZArith Bool Arith Lia Permutation Sorted.
Import ListNotations.
From Verif Require Import Num Vec Handlers Material Analysis Truss Equil Solver Run Text SpecSolver SpecRun SpecText SpecTable
  ListFacts RunFacts RunProps TextFacts TextProps.

Section Rows.
  Context {F : Type} `{NF : Num F}.
  Variable argsortF : list F -> list nat.
  Variable solve : list (list F) -> list F -> list F.
  Notation L := (line F).

  Lemma rows_app (a b : list L) : rows_in (a ++ b) = rows_in a ++ rows_in b.
  Proof. apply filter_app. Qed.
  Definition rowless (l : L) : Prop :=
    match l with LPre _ _ _ _ _ _ | LIter _ _ | LTotal _ _ _ _ _ _ _ _ _ _ => False | _ => True end.
  Lemma rowless_rows t : Forall rowless t -> rows_in t = [].
  Proof. induction 1 as [|l t Hl _ IH]; [reflexivity|]. cbn. destruct l; cbn in *; auto; contradiction. Qed.

  (** ** Newton *)
  Definition iters_from (n : Z) (ns : list F) : list L :=
    map (fun p => LIter (n + Z.of_nat (fst p)) (snd p)) (combine (seq 0 (length ns)) ns).
  Lemma iters_from_cons n v ns : iters_from n (v :: ns) = LIter n v :: iters_from (n + 1) ns.
  Proof.
    unfold iters_from. cbn [length seq combine map fst snd]. f_equal; [f_equal; lia|].
    rewrite <- seq_shift. generalize (length ns) as m. intros m. generalize (seq 0 m) as l. clear m.
    intros l. revert l. induction ns as [|w ns IH]; intros [|a l]; cbn; try reflexivity. f_equal; [f_equal; lia|apply IH].
  Qed.
  Lemma iters_iters ns : iters_from 1 ns = iters ns.
  Proof. reflexivity. Qed.
  Lemma iters_rows n ns : rows_in (iters_from n ns) = iters_from n ns.
  Proof. revert n. induction ns as [|v ns IH]; intros n; [reflexivity|]. rewrite iters_from_cons. cbn. f_equal. apply IH. Qed.

  Lemma newton_table {S : Type} v fn dfn ftol xtol k : (0 < v)%Z -> forall n x prev (s : S) t s' o,
    newton_loop_t solve v fn dfn ftol xtol k n x prev s = (t, Ok (s', o)) ->
    (k = O /\ t = [] /\ no_success o = false /\ no_n o = n /\ s' = s /\ exists xn, prev = Some (no_fnorm o, xn)) \/
    exists ns s2 fv, t = iters_from (n + 1) (ns ++ [no_fnorm o]) /\ no_n o = (n + 1 + Z.of_nat (length ns))%Z /\
      fn (no_x o) s2 = Ok (s', fv) /\ (no_success o = true -> fltb (no_fnorm o) ftol = true).
  Proof.
    intros Hv. induction k as [|k IH]; intros n x prev s t s' o H; cbn [newton_loop_t] in H.
    { destruct prev as [[? ?]|]; [|discriminate]. injection H as <- <- <-. left. repeat split. eexists. reflexivity. }
    tq H [s1 Km] E1. tq H [s2 fv] E2. cbv zeta in H. tq H x' E3. tq H [s3 fv'] E4. tsay H t3. rewrite above_on by lia. right.
    destruct (_ && _) eqn:Ec.
    - apply quiet_ok in H as [-> H]. injection H as <- <-. exists [], s2, fv'. cbn [no_x no_n no_fnorm no_success app length].
      split; [rewrite iters_from_cons; reflexivity|]. split; [lia|]. split; [exact E4|]. intros _. now apply andb_prop in Ec.
    - pose proof H as Hx. apply IH in H as [(-> & -> & H & Hn & -> & xn & Hp)|(ns & sa & fa & -> & Hn & Hf & Hok)].
      + cbn [newton_loop_t] in Hx. injection Hx as Hx. injection Hp as E5 _. exists [], s2, fv'. cbn [app length].
        split; [rewrite iters_from_cons, <- E5; reflexivity|]. split; [lia|]. split; [rewrite <- Hx; exact E4|]. congruence.
      + exists (fnorm fv' :: ns), sa, fa. cbn [app length]. split; [rewrite (iters_from_cons (n + 1)); reflexivity|].
        split; [lia|]. auto.
  Qed.

  (** ** The leading components *)
  Hypothesis Hsort : argsort_sorts argsortF.

  Lemma sorted_rev {A} (R : A -> A -> Prop) l : StronglySorted R l -> StronglySorted (fun a b => R b a) (rev l).
  Proof.
    induction 1 as [|a l Hs IH Ha]; [constructor|]. cbn. clear Hs. revert IH. generalize (rev_involutive l). 
    assert (Hr : Forall (R a) (rev l)) by (rewrite Forall_forall in *; intros y Hy; apply Ha, in_rev, Hy). intros _. revert Hr.
    generalize (rev l). intros m Hr Hm. induction Hm as [|b m Hm IHm Hb]; cbn; [repeat constructor|].
    inversion Hr; subst. constructor; [auto|]. apply Forall_app. split; [exact Hb|]. repeat constructor. assumption.
  Qed.
  Lemma sorted_app {A} (R : A -> A -> Prop) a b : StronglySorted R (a ++ b) ->
    StronglySorted R a /\ forall x y, In x a -> In y b -> R x y.
  Proof.
    induction a as [|c a IH]; cbn; intros H; [split; [constructor|contradiction]|]. inversion H as [|? ? Hs Hf]; subst.
    destruct (IH Hs) as [I1 I2]. apply Forall_app in Hf as [F1 F2]. split; [constructor; assumption|].
    intros x y [<-|Hx] Hy; [rewrite Forall_forall in F2; auto|auto].
  Qed.
  Lemma sorted_map {A B} (f : A -> B) (R : B -> B -> Prop) l : StronglySorted R (map f l) -> StronglySorted (fun a b => R (f a) (f b)) l.
  Proof.
    induction l as [|a l IH]; cbn; intros H; [constructor|]. inversion H as [|? ? Hs Hf]; subst. constructor; [auto|].
    rewrite Forall_forall in *. intros b Hb. apply Hf. now apply in_map.
  Qed.
  Lemma map_sorted {A B} (f : A -> B) (R : B -> B -> Prop) l : StronglySorted (fun a b => R (f a) (f b)) l -> StronglySorted R (map f l).
  Proof.
    induction 1 as [|a l Hs IH Ha]; cbn; constructor; [exact IH|]. rewrite Forall_forall in *. intros b Hb.
    apply in_map_iff in Hb as (c & <- & Hc). auto.
  Qed.

  Lemma sorted_impl {A} (P Q : A -> A -> Prop) l : (forall a b, P a b -> Q a b) -> StronglySorted P l -> StronglySorted Q l.
  Proof. intros H. induction 1 as [|a l Hs IH Ha]; constructor; [exact IH|]. eapply Forall_impl; [|exact Ha]. auto. Qed.

  Lemma leaders_first (q : list F) n :
    leaders q (map (fun p => (S p, fmul (fabs (nth p q f0)) (fsign (nth p q f0)))) (firstn n (rev (argsortF (map fabs q))))).
  Proof.
    destruct (Hsort (map fabs q)) as [Hp Hs]. rewrite map_length in Hp. set (a := argsortF (map fabs q)) in *.
    exists (firstn n (rev a)), (skipn n (rev a)). rewrite firstn_skipn. split.
    { rewrite <- Hp. apply Permutation_sym, Permutation_rev. }
    split; [reflexivity|]. intros Hn. specialize (Hs Hn).
    assert (Hs' : StronglySorted (fun x y => fleb (fabs (nth x q f0)) (fabs (nth y q f0)) = true) a).
    { apply (sorted_map (fun i => fabs (nth i q f0)) (fun x y => fleb x y = true)).
      assert (E : map (fun i => nth i (map fabs q) f0) a = map (fun i => fabs (nth i q f0)) a).
      { apply map_ext_in. intros i Hi. apply (Permutation_in _ Hp) in Hi. apply in_seq in Hi.
        rewrite (nth_indep _ f0 (fabs f0)) by (rewrite map_length; lia). apply map_nth. }
      rewrite <- E. exact Hs. }
    apply sorted_rev in Hs'. rewrite <- (firstn_skipn n (rev a)) in Hs'. apply sorted_app in Hs' as [H1 H2]. split.
    - apply (map_sorted (fun p => fabs (nth p q f0)) (fun x y => fleb y x = true)). exact H1.
    - intros p r Hip Hir. exact (H2 p r Hip Hir).
  Qed.

  Lemma argsort_len q : length (rev (argsortF (map fabs q))) = length q.
  Proof. rewrite rev_length. destruct (Hsort (map fabs q)) as [Hp _]. rewrite (Permutation_length Hp), seq_length, map_length. reflexivity. Qed.

  Lemma leads_shown (Dx d q : list F) i1 v1 : biggest argsortF Dx d = Ok (i1, v1) -> bcast2 fdiv Dx d = Ok q -> (2 <= length q)%nat ->
    three q ((i1, v1), ranked argsortF Dx d 1, if Nat.ltb 2 (length q) then ranked argsortF Dx d 2 else (0%nat, fnan)).
  Proof.
    intros Hb Hq Hl. unfold biggest in Hb. rewrite Hq in Hb. cbn [bind] in Hb. unfold ranked. rewrite Hq.
    pose proof (argsort_len q) as HL. pose proof (leaders_first q) as HF.
    set (a := argsortF (map fabs q)) in *.
    destruct (py_get a (-1)) as [i| |] eqn:Ei; try discriminate. cbn [bind] in Hb.
    destruct (nth_error q i) as [w|] eqn:Ew; [|discriminate]. cbn [bind] in Hb. injection Hb as <- <-.
    assert (E0 : nth 0 (rev a) 0%nat = i).
    { destruct a as [|y a'] eqn:Ea using rev_ind; [cbn in HL; lia|]. rewrite rev_app_distr. cbn.
      unfold py_get, py_pos in Ei. rewrite app_length in Ei. cbn [length] in Ei.
      replace ((- Z.of_nat (length a' + 1) <=? -1)%Z) with true in Ei by (symmetry; apply Z.leb_le; lia).
      cbn in Ei. match type of Ei with context [nth_error _ ?p] => replace p with (length a') in Ei by lia end.
      rewrite nth_error_app2, Nat.sub_diag in Ei by lia. cbn in Ei. congruence. }
    assert (Ew' : nth i q f0 = w) by (apply nth_error_nth; exact Ew).
    unfold three. destruct (Nat.ltb_spec 2 (length q)) as [H3|H3].
    - left. specialize (HF 3%nat). rewrite <- Ew', <- E0.
      destruct (rev a) as [|a1 [|a2 [|a3 ar]]]; cbn [length] in HL; try lia. exact HF.
    - right. split; [lia|]. split; [|reflexivity]. specialize (HF 2%nat). rewrite <- Ew', <- E0.
      destruct (rev a) as [|a1 [|a2 ar]]; cbn [length] in HL; try lia. exact HF.
  Qed.
End Rows.
