(** * Facts about the plots *)
From Coq Require Import List ZArith NArith Bool Arith String Ascii DecimalString Sorting.Sorted Permutation Lia.
Import ListNotations.
From Verif Require Import Num Vec Handlers Analysis Run Plot SpecPlot ListFacts.

Lemma foldM_total {A S} (f : S -> A -> res S) (l : list A) : forall s,
  (forall a s, In a l -> exists s', f s a = Ok s') -> exists s', foldM f l s = Ok s'.
Proof.
  induction l as [|a l IH]; intros s H; cbn [foldM]; [eauto|].
  destruct (H a s (or_introl eq_refl)) as [s' E]. rewrite E. cbn. apply IH. intros b t Hb. apply H. now right.
Qed.

Lemma Forall2_len {A B} (P : A -> B -> Prop) la lb : Forall2 P la lb -> List.length la = List.length lb.
Proof. induction 1; cbn; congruence. Qed.

Lemma py_get_1 {A} (a b : A) l : py_get (a :: b :: l) 1 = Ok b.
Proof. unfold py_get. rewrite py_pos_nonneg by (cbn [List.length]; lia). reflexivity. Qed.

Section History.
  Context {F : Type} `{NF : Num F}.
  Implicit Types (r : analysis F) (R : list (analysis F)).

  Lemma at_node_gather {A} labels (rows : list A) n x : NoDup labels ->
    gather0 rows (positions n labels) = Ok x <-> at_node labels rows n x.
  Proof.
    intros Hnd. split.
    - intros H. unfold gather0 in H. apply bind_ok in H. destruct H as (xs & Hg & H).
      destruct xs as [|y xs]; [discriminate|]. injection H as ->.
      destruct (gather_nth _ _ _ Hg) as [Hl Hn].
      destruct (positions n labels) as [|p ps] eqn:Ep; [discriminate|].
      exists p. split; [apply positions_In; rewrite Ep; now left|].
      destruct (Hn 0 p eq_refl) as [E _]. cbn in E. now symmetry.
    - intros (p & H1 & H2). rewrite (positions_NoDup n labels p Hnd H1). now apply gather0_one.
  Qed.

  Lemma quantity_axis labels n (rows : list (v3 F)) d l x : NoDup labels -> last_char l = Ok (match d with AxX => "X" | AxY => "Y" | AxZ => "Z" end)%char ->
    (n' <- Ok n ;; row <- gather0 rows (positions n' labels) ;; c <- last_char l ;; d' <- dir_dict c ;; Ok (vget row d')) = Ok x <->
    exists v, at_node labels rows n v /\ x = comp_of v d.
  Proof.
    intros Hnd Hl. rewrite Hl. cbn [bind]. rewrite bind_ok. split.
    - intros (v & Hv & H). apply at_node_gather in Hv; [|exact Hnd]. exists v. split; [exact Hv|].
      destruct d; cbn in H; injection H as <-; reflexivity.
    - intros (v & Hv & ->). exists v. split; [apply at_node_gather; auto|]. destruct d; reflexivity.
  Qed.

  (** The reader returns exactly the requested quantity. *)
  Lemma quantity_iff labels q n r old x : NoDup labels -> nameable q ->
    quantity labels (text q) (Ok n) r old = Ok x <-> is_quantity labels q n r x.
  Proof.
    intros Hnd Hq. destruct q as [d|d| |k].
    - unfold quantity. replace (contains "Displacement" (text (RDisp d))) with true by (destruct d; reflexivity).
      cbn [is_quantity]. apply quantity_axis; [exact Hnd|]. destruct d; reflexivity.
    - unfold quantity. replace (contains "Displacement" (text (RForce d))) with false by (destruct d; reflexivity).
      replace (contains "LPF" (text (RForce d))) with false by (destruct d; reflexivity).
      replace (contains "Force" (text (RForce d))) with true by (destruct d; reflexivity).
      cbn [is_quantity]. apply quantity_axis; [exact Hnd|]. destruct d; reflexivity.
    - cbn. split; [intros H; injection H as <-; reflexivity|intros ->; reflexivity].
    - assert (E : quantity labels (text (RState k)) (Ok n) r old =
        match a_state r with None => Err TypeError
        | Some sv => row <- gather0 sv (positions n labels) ;; py_get row (Z.of_nat k - 1) end).
      { cbn in Hq. do 10 (destruct k as [|k]; [try lia; reflexivity|]). lia. }
      rewrite E. cbn [is_quantity]. cbn in Hq. destruct (a_state r) as [sv|].
      2:{ split; [discriminate|]. intros (sv & row & H & _). discriminate. }
      assert (G : forall row, py_get row (Z.of_nat k - 1) = Ok x <-> nth_error row (k - 1) = Some x).
      { intros row. rewrite py_get_nth. replace (k - 1) with (Z.to_nat (Z.of_nat k - 1)) by lia. split.
        - intros (p & Hp & H). unfold py_pos in Hp.
          destruct (Z.leb_spec 0 (Z.of_nat k - 1)); [|lia].
          destruct (Z.ltb_spec (Z.of_nat k - 1) (Z.of_nat (List.length row))); cbn [andb] in Hp.
          + now injection Hp as <-.
          + destruct (Z.ltb_spec (Z.of_nat k - 1) 0); [lia|]. rewrite andb_false_r in Hp. discriminate.
        - intros H. eexists. split; [|exact H]. apply py_pos_nonneg. split; [lia|].
          assert (Z.to_nat (Z.of_nat k - 1) < List.length row) by (apply nth_error_Some; congruence). lia. }
      rewrite bind_ok. split.
      + intros (row & H1 & H2). exists sv, row. split; [reflexivity|]. split; [now apply at_node_gather|now apply G].
      + intros (sv' & row & E' & H1 & H2). injection E' as <-. exists row. split; [now apply at_node_gather|now apply G].
  Qed.

  Definition hstep labels nodes X Y (s : F * F * list F * list F) r :=
    let '(x, y, xx, yy) := s in
    x' <- quantity labels X (py_get nodes 0) r x ;;
    y' <- quantity labels Y (py_get nodes 1) r y ;;
    Ok (x', y', xx ++ [x'], yy ++ [y']).

  Lemma hloop_length labels nodes X Y R : forall x y xx yy x' y' xx' yy',
    foldM (hstep labels nodes X Y) R (x, y, xx, yy) = Ok (x', y', xx', yy') ->
    List.length xx' = List.length xx + List.length R /\ List.length yy' = List.length yy + List.length R /\
    firstn (List.length xx) xx' = xx /\ firstn (List.length yy) yy' = yy.
  Proof.
    induction R as [|r R IH]; intros x y xx yy x' y' xx' yy' H; cbn [foldM] in H.
    - injection H as <- <- <- <-. cbn. rewrite !firstn_all. repeat split; lia.
    - apply bind_ok in H. destruct H as ([[[x1 y1] xx1] yy1] & H1 & H). unfold hstep in H1.
      apply bind_ok in H1. destruct H1 as (a & _ & H1). apply bind_ok in H1. destruct H1 as (b & _ & H1).
      injection H1 as <- <- <- <-. apply IH in H. rewrite !app_length in H. cbn [List.length] in *.
      destruct H as (L1 & L2 & P1 & P2). split; [lia|]. split; [lia|]. split.
      + rewrite <- (firstn_skipn (List.length xx + 1) xx'), P1, <- app_assoc, firstn_app, firstn_all, Nat.sub_diag.
        cbn. apply app_nil_r.
      + rewrite <- (firstn_skipn (List.length yy + 1) yy'), P2, <- app_assoc, firstn_app, firstn_all, Nat.sub_diag.
        cbn. apply app_nil_r.
  Qed.

  Lemma hloop labels nodes X Y (Q1 Q2 : analysis F -> F -> Prop) R :
    (forall r x v, quantity labels X (py_get nodes 0) r x = Ok v <-> Q1 r v) ->
    (forall r x v, quantity labels Y (py_get nodes 1) r x = Ok v <-> Q2 r v) ->
    forall x y xx yy xx' yy',
    (exists x' y', foldM (hstep labels nodes X Y) R (x, y, xx, yy) = Ok (x', y', xx', yy')) <->
    exists xs ys, xx' = xx ++ xs /\ yy' = yy ++ ys /\ Forall2 Q1 R xs /\ Forall2 Q2 R ys.
  Proof.
    intros HX HY. induction R as [|r R IH]; intros x y xx yy xx' yy'; cbn [foldM].
    - split.
      + intros (x' & y' & H). injection H as <- <- <- <-. exists [], []. rewrite !app_nil_r. auto.
      + intros (xs & ys & -> & -> & H1 & H2). inversion H1; inversion H2. rewrite !app_nil_r. eauto.
    - split.
      + intros (x' & y' & H). apply bind_ok in H. destruct H as ([[[x1 y1] xx1] yy1] & H1 & H). unfold hstep in H1.
        apply bind_ok in H1. destruct H1 as (a & Ha & H1). apply bind_ok in H1. destruct H1 as (b & Hb & H1).
        injection H1 as <- <- <- <-.
        destruct (proj1 (IH _ _ _ _ _ _) (ex_intro _ x' (ex_intro _ y' H))) as (xs & ys & -> & -> & F1 & F2).
        exists (a :: xs), (b :: ys). rewrite <- !app_assoc. cbn [app].
        split; [reflexivity|]. split; [reflexivity|].
        split; constructor; auto; [apply HX in Ha|apply HY in Hb]; auto.
      + intros (xs & ys & -> & -> & F1 & F2). inversion F1 as [|? a ? xs' A1 A2]; subst. inversion F2 as [|? b ? ys' B1 B2]; subst.
        unfold hstep at 1. rewrite (proj2 (HX r x a) A1). cbn [bind]. rewrite (proj2 (HY r y b) B1). cbn [bind].
        apply (proj2 (IH a b (xx ++ [a]) (yy ++ [b]) _ _)). exists xs', ys'. rewrite <- !app_assoc. auto.
  Qed.

  Definition count R : list F := map (fun k => fofZ (Z.of_nat k)) (seq 0 (1 + List.length R)).

  Lemma count_length R : List.length (count R) = 1 + List.length R.
  Proof. unfold count. now rewrite map_length, seq_length. Qed.

  Lemma p_history_unfold labels R nodes X Y :
    p_history labels R nodes X Y =
    ' (_, _, xx, yy) <- foldM (hstep labels nodes X Y) R (fnan, fnan, [f0], [f0]) ;;
    let xx := if contains "Increments" X then count R else xx in
    let yy := if contains "Increments" Y then count R else yy in
    _ <- py_get nodes 0 ;;
    if Nat.eqb (List.length xx) (List.length yy) then Ok (xx, yy) else Err ValueError.
  Proof. reflexivity. Qed.

  Lemma p_history_lengths labels R nodes X Y xx yy :
    p_history labels R nodes X Y = Ok (xx, yy) ->
    List.length xx = 1 + List.length R /\ List.length yy = 1 + List.length R /\
    (contains "Increments" X = false -> nth_error xx 0 = Some f0) /\
    (contains "Increments" Y = false -> nth_error yy 0 = Some f0).
  Proof.
    rewrite p_history_unfold. intros H. apply bind_ok in H. destruct H as ([[[x y] xs] ys] & Hl & H).
    apply hloop_length in Hl. cbn [List.length] in Hl. destruct Hl as (L1 & L2 & P1 & P2).
    apply bind_ok in H. destruct H as (_ & _ & H).
    destruct (Nat.eqb _ _); [|discriminate]. injection H as <- <-.
    destruct xs as [|x0 xs]; [discriminate|]. destruct ys as [|y0 ys]; [discriminate|].
    cbn in P1, P2. injection P1 as ->. injection P2 as ->.
    destruct (contains "Increments" X), (contains "Increments" Y); cbn [List.length nth_error] in *;
      rewrite ?count_length; repeat split; auto; discriminate.
  Qed.

  Lemma text_not_inc q : contains "Increments" (text q) = false.
  Proof.
    destruct q as [[| |]|[| |]| |k]; try reflexivity. unfold text, digit.
    generalize (ascii_of_nat (48 + k)). intros c. destruct c as [[] [] [] [] [] [] [] []]; reflexivity.
  Qed.

  Lemma p_history_iff labels R n1 n2 rest qx qy xx yy : NoDup labels -> nameable qx -> nameable qy ->
    p_history labels R (n1 :: n2 :: rest) (text qx) (text qy) = Ok (xx, yy) <->
    exists xs ys, xx = f0 :: xs /\ yy = f0 :: ys /\
      Forall2 (is_quantity labels qx n1) R xs /\ Forall2 (is_quantity labels qy n2) R ys.
  Proof.
    intros Hnd Hx Hy. rewrite p_history_unfold, !text_not_inc.
    assert (HY : forall r x v, quantity labels (text qy) (py_get (n1 :: n2 :: rest) 1) r x = Ok v <-> is_quantity labels qy n2 r v)
      by (intros; rewrite py_get_1; now apply quantity_iff).
    pose proof (hloop labels (n1 :: n2 :: rest) (text qx) (text qy)
      (is_quantity labels qx n1) (is_quantity labels qy n2) R
      (fun r x v => quantity_iff labels qx n1 r x v Hnd Hx) HY) as G.
    split.
    - intros H. apply bind_ok in H. destruct H as ([[[x y] xs] ys] & Hl & H).
      cbn [bind] in H. destruct (Nat.eqb _ _); [|discriminate]. injection H as <- <-.
      destruct (proj1 (G _ _ _ _ _ _) (ex_intro _ _ (ex_intro _ _ Hl))) as (a & b & E1 & E2 & F1 & F2).
      exists a, b. auto.
    - intros (xs & ys & -> & -> & F1 & F2).
      destruct (proj2 (G fnan fnan [f0] [f0] (f0 :: xs) (f0 :: ys))) as (x' & y' & E); [exists xs, ys; auto|].
      rewrite E. cbn [bind py_get py_pos]. cbn [List.length].
      rewrite <- (Forall2_len _ _ _ F1), <- (Forall2_len _ _ _ F2), Nat.eqb_refl. reflexivity.
  Qed.

  Lemma p_history_inc labels R n1 n2 rest qy xx yy : NoDup labels -> nameable qy ->
    p_history labels R (n1 :: n2 :: rest) "Increments" (text qy) = Ok (xx, yy) <->
    exists ys, xx = map (fun k => fofZ (Z.of_nat k)) (seq 0 (1 + List.length R)) /\ yy = f0 :: ys /\
      Forall2 (is_quantity labels qy n2) R ys.
  Proof.
    intros Hnd Hy. rewrite p_history_unfold, !text_not_inc.
    change (contains "Increments" "Increments") with true. cbv iota.
    assert (G : forall R x y xx yy yy',
      (exists x' y' xx', foldM (hstep labels (n1 :: n2 :: rest) "Increments" (text qy)) R (x, y, xx, yy) = Ok (x', y', xx', yy')) <->
      exists ys, yy' = yy ++ ys /\ Forall2 (is_quantity labels qy n2) R ys).
    { clear - Hnd Hy. intros R. induction R as [|r R IH]; intros x y xx yy yy'; cbn [foldM].
      - split.
        + intros (x' & y' & xx' & H). injection H as <- <- <- <-. exists []. rewrite app_nil_r. auto.
        + intros (ys & -> & H1). inversion H1. rewrite app_nil_r. eauto.
      - split.
        + intros (x' & y' & xx' & H). apply bind_ok in H. destruct H as ([[[x1 y1] xx1] yy1] & H1 & H). unfold hstep in H1.
          apply bind_ok in H1. destruct H1 as (a & Ha & H1). apply bind_ok in H1. destruct H1 as (b & Hb & H1).
          injection H1 as <- <- <- <-.
          destruct (proj1 (IH _ _ _ _ _) (ex_intro _ x' (ex_intro _ y' (ex_intro _ xx' H)))) as (ys & -> & F2).
          exists (b :: ys). rewrite <- !app_assoc. split; [reflexivity|]. constructor; auto.
          rewrite py_get_1 in Hb. apply quantity_iff in Hb; auto.
        + intros (ys & -> & F2). inversion F2 as [|? b ? ys' B1 B2]; subst.
          unfold hstep at 1. change (quantity labels "Increments" (py_get (n1 :: n2 :: rest) 0) r x) with (Ok x).
          cbn [bind]. rewrite py_get_1.
          rewrite (proj2 (quantity_iff labels qy n2 r y b Hnd Hy) B1). cbn [bind].
          apply (proj2 (IH x b (xx ++ [x]) (yy ++ [b]) _)). exists ys'. rewrite <- !app_assoc. auto. }
    split.
    - intros H. apply bind_ok in H. destruct H as ([[[x y] xs] ys] & Hl & H).
      cbn [bind] in H. destruct (Nat.eqb _ _); [|discriminate]. injection H as <- <-.
      destruct (proj1 (G _ _ _ _ _ _) (ex_intro _ _ (ex_intro _ _ (ex_intro _ _ Hl)))) as (b & E2 & F2).
      exists b. auto.
    - intros (ys & -> & -> & F2).
      destruct (proj2 (G R fnan fnan [f0] [f0] (f0 :: ys))) as (x' & y' & xs & E); [exists ys; auto|].
      rewrite E. cbn [bind py_get py_pos]. rewrite count_length. cbn [List.length Nat.add].
      rewrite <- (Forall2_len _ _ _ F2), Nat.eqb_refl. reflexivity.
  Qed.

  (** ** plot_path *)
  Lemma fold_min_ge l : forall a b, (forall x, In x (a :: l) -> (b <= x)%Z) -> (b <= fold_left Z.min l a)%Z.
  Proof.
    induction l as [|y l IH]; intros a b H; cbn [fold_left]; [apply H; now left|]. apply IH.
    intros x [<-|Hx]; [|apply H; right; now right].
    assert (b <= a)%Z by (apply H; now left). assert (b <= y)%Z by (apply H; right; now left). lia.
  Qed.
  Lemma fold_min_le l : forall a, (fold_left Z.min l a <= a)%Z.
  Proof. induction l as [|y l IH]; intros a; cbn [fold_left]; [lia|]. specialize (IH (Z.min a y)). lia. Qed.
  Lemma fold_max_le l : forall a b, (forall x, In x (a :: l) -> (x <= b)%Z) -> (fold_left Z.max l a <= b)%Z.
  Proof.
    induction l as [|y l IH]; intros a b H; cbn [fold_left]; [apply H; now left|]. apply IH.
    intros x [<-|Hx]; [|apply H; right; now right].
    assert (a <= b)%Z by (apply H; now left). assert (y <= b)%Z by (apply H; right; now left). lia.
  Qed.
  Lemma fold_max_ge l : forall a x, In x (a :: l) -> (x <= fold_left Z.max l a)%Z.
  Proof.
    induction l as [|y l IH]; intros a x H; cbn [fold_left].
    - destruct H as [<-|[]]. lia.
    - assert (G : (Z.max a y <= fold_left Z.max l (Z.max a y))%Z) by (apply IH; now left).
      destruct H as [<-|[<-|H]]; [lia|lia|]. apply IH. now right.
  Qed.

  Lemma consecutive_full a path :
    let lo := fold_left Z.min (a :: path) a in
    let hi := fold_left Z.max (a :: path) a in
    a :: path = map (fun k => lo + Z.of_nat k)%Z (seq 0 (Z.to_nat (hi - lo + 1))) <-> consecutive (a :: path).
  Proof.
    intros lo hi. split.
    - intros E. exists lo. destruct (Z.to_nat (hi - lo + 1)) as [|n]; [discriminate|]. exists n. exact E.
    - intros (b & n & E).
      assert (Ea : a = b).
      { cbn in E. injection E as E _. lia. }
      subst b.
      assert (Hlo : lo = a).
      { unfold lo. rewrite E. cbn [fold_left]. apply Z.le_antisymm; [apply fold_min_le|].
        apply fold_min_ge. intros x [<-|Hx]; [lia|]. apply in_map_iff in Hx. destruct Hx as (k & <- & _). lia. }
      assert (Hhi : hi = (a + Z.of_nat n)%Z).
      { unfold hi. rewrite E. apply Z.le_antisymm.
        - apply fold_max_le. intros x [<-|Hx]; [lia|]. apply in_map_iff in Hx. destruct Hx as (k & <- & Hk).
          apply in_seq in Hk. lia.
        - apply fold_max_ge. right. apply in_map_iff. exists n. split; [reflexivity|]. apply in_seq. lia. }
      rewrite Hlo, Hhi, E. f_equal. f_equal. lia.
  Qed.

  Lemma p_path_iff labels R path is_range inc q xd yd : NoDup labels -> nameable q ->
    p_path labels R path is_range inc (text q) = Ok (xd, yd) <->
    path <> [] /\ path_axis is_range path xd /\
    exists r, py_get R inc = Ok r /\ Forall2 (fun n y => is_quantity labels q n r y) path yd.
  Proof.
    intros Hnd Hq. unfold p_path.
    assert (G : forall r path y0 yy0 yy,
      (exists y, foldM (fun s n => let '(y, yy) := s in y' <- quantity labels (text q) (Ok n) r y ;; Ok (y', yy ++ [y'])) path (y0, yy0) = Ok (y, yy)) <->
      exists ys, yy = yy0 ++ ys /\ Forall2 (fun n y => is_quantity labels q n r y) path ys).
    { clear - Hnd Hq. intros r. induction path as [|n path IH]; intros y0 yy0 yy; cbn [foldM].
      - split.
        + intros (y & H). injection H as <- <-. exists []. now rewrite app_nil_r.
        + intros (ys & -> & H). inversion H. rewrite app_nil_r. eauto.
      - split.
        + intros (y & H). apply bind_ok in H. destruct H as ([y1 yy1] & H1 & H). apply bind_ok in H1. destruct H1 as (b & Hb & H1).
          injection H1 as <- <-. destruct (proj1 (IH _ _ _) (ex_intro _ y H)) as (ys & -> & HF). exists (b :: ys).
          rewrite <- app_assoc. split; [reflexivity|]. constructor; auto. apply quantity_iff in Hb; auto.
        + intros (ys & -> & HF). inversion HF as [|? b ? ys' B1 B2]; subst.
          rewrite (proj2 (quantity_iff labels q n r y0 b Hnd Hq) B1). cbn [bind].
          apply (proj2 (IH b (yy0 ++ [b]) _)). exists ys'. rewrite <- app_assoc. auto. }
    assert (A : forall a path, path_axis is_range (a :: path)
       (if is_range && (if list_eq_dec Z.eq_dec (a :: path)
            (map (fun k => fold_left Z.min (a :: path) a + Z.of_nat k)%Z
               (seq 0 (Z.to_nat (fold_left Z.max (a :: path) a - fold_left Z.min (a :: path) a + 1)))) then true else false)
        then a :: path else map Z.of_nat (seq 0 (List.length (a :: path))))).
    { intros a p. pose proof (consecutive_full a p) as C. cbv zeta in C. unfold path_axis.
      destruct is_range; cbn [andb]; [|right; split; [intros [? _]; discriminate|reflexivity]].
      destruct (list_eq_dec _ _ _) as [E|E]; [left|right]; (split; [|reflexivity]).
      - split; [reflexivity|]. now apply C.
      - intros [_ H]. apply E. now apply C. }
    assert (U : forall p x1 x2, path_axis is_range p x1 -> path_axis is_range p x2 -> x1 = x2).
    { intros p x1 x2 [[H1 ->]|[H1 ->]] [[H2 ->]|[H2 ->]]; tauto. }
    split.
    - intros H. apply bind_ok in H. destruct H as (r & Hr & H).
      apply bind_ok in H. destruct H as ([y yy] & Hl & H).
      destruct (proj1 (G r _ _ _ _) (ex_intro _ y Hl)) as (ys & E & HF). cbn [app] in E. subst ys.
      destruct path as [|a path]; [discriminate|]. split; [discriminate|].
      specialize (A a path).
      destruct (_ && _) in H, A; injection H as <- <-; (split; [exact A|]); exists r; auto.
    - intros (Hne & Hax & r & Hr & HF). rewrite Hr. cbn [bind].
      destruct (proj2 (G r path fnan [] yd) (ex_intro _ yd (conj eq_refl HF))) as (y & E). rewrite E. cbn [bind].
      destruct path as [|a path]; [congruence|]. specialize (A a path).
      pose proof (U _ _ _ Hax A) as ->. destruct (_ && _); reflexivity.
  Qed.
End History.
