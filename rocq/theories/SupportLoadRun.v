(** * Runs of two models whose loads agree at the free components *)
From Coq Require Import List ZArith Bool Arith Lia Permutation Sorting.Sorted.
Import ListNotations.
From Verif Require Import Num Vec Handlers Material Analysis Truss Equil Solver Run ListFacts SpecMech SpecBuild
  BuildFacts BuildProps EquilFacts SpecState FrameFacts EvalFacts SpecRun ReachFacts SpecSame SimFacts SameFacts SameRun SpecSupportLoad.

(** ** Lists that agree at some positions *)
Definition agree {A} (D : list nat) (l l' : list A) : Prop := forall p, In p D -> nth_error l' p = nth_error l p.

Lemma agree_refl {A} D (l : list A) : agree D l l.
Proof. intros p _. reflexivity. Qed.

Lemma nth_error_map2 {A B C} (f : A -> B -> C) : forall l m p,
  nth_error (map2 f l m) p = match nth_error l p, nth_error m p with Some x, Some y => Some (f x y) | _, _ => None end.
Proof.
  induction l as [|x l IH]; intros [|y m] [|p]; cbn; try reflexivity.
  - destruct (nth_error l p); reflexivity.
  - apply IH.
Qed.

Lemma agree_map2 {A B C} (f : A -> B -> C) D l l' m m' : agree D l l' -> agree D m m' -> agree D (map2 f l m) (map2 f l' m').
Proof. intros H1 H2 p Hp. rewrite !nth_error_map2, (H1 p Hp), (H2 p Hp). reflexivity. Qed.

Lemma agree_map {A B} (f : A -> B) D l l' : agree D l l' -> agree D (map f l) (map f l').
Proof. intros H p Hp. rewrite !nth_error_map, (H p Hp). reflexivity. Qed.

Lemma agree_gather {A} D (l l' : list A) : agree D l l' -> gather l' D = gather l D.
Proof.
  induction D as [|p D IH]; intros H; cbn [gather]; [reflexivity|]. rewrite (H p (or_introl eq_refl)).
  rewrite IH by (intros q Hq; apply H; right; exact Hq). reflexivity.
Qed.

Lemma map2_len {A B C} (f : A -> B -> C) : forall l m, length l = length m -> length (map2 f l m) = length l.
Proof. induction l as [|x l IH]; intros [|y m] H; try discriminate; [reflexivity|]. cbn. rewrite IH by (cbn in H; lia). reflexivity. Qed.

Section Sim.
  Context {F : Type} `{NF : Num F}.
  Variable argsortF : list F -> list nat.
  Variable solve : list (list F) -> list F -> list F.
  Notation AN := (analysis F).
  Variables (c : ctx F) (ms : list (member F)) (D : list nat).
  Hypothesis Hok : truss_ok c ms.
  Notation n := (length (c_labels c)).

  (** Other residual, constant load and load. *)
  Definition X (g : list F) (f h : list (list F)) (a : AN) : AN := set_g g (set_fconst f (set_forces h a)).
  Definition XA (g : list F) (f h : list (list F)) {B} (r : res (AN * B)) : res (AN * B) :=
    match r with Ok (a, b) => Ok (X g f h a, b) | Err e => Err e | Timeout => Timeout end.

  Ltac next := match goal with |- context [bind ?e _] => destruct e; cbn [bind XA]; try reflexivity end.

  Lemma truss_X e NA NE XA' XE UA UE U0A U0E rA rE nl el st sv mat geo u g f h (a : AN) :
    truss e NA NE XA' XE UA UE U0A U0E rA rE nl el st sv mat geo u (X g f h a) =
    XA g f h (truss e NA NE XA' XE UA UE U0A U0E rA rE nl el st sv mat geo u a).
  Proof.
    unfold truss. cbv zeta. change (a_stretch (X g f h a)) with (a_stretch a). change (a_stress (X g f h a)) with (a_stress a).
    change (a_force (X g f h a)) with (a_force a). change (a_r (X g f h a)) with (a_r a). change (a_K (X g f h a)) with (a_K a).
    next. next. destruct st; repeat next.
  Qed.

  Lemma elem_step_X st Ured lpf w g f h (a : AN) o e :
    elem_step c st Ured lpf w (X g f h a, o) e = XA g f h (elem_step c st Ured lpf w (a, o) e).
  Proof.
    unfold elem_step. cbn [fst snd]. change (a_U (X g f h a)) with (a_U a). change (a_U0 (X g f h a)) with (a_U0 a).
    change (a_state (X g f h a)) with (a_state a). change (a_r (X g f h a)) with (a_r a).
    do 30 (try (match goal with |- context [bind ?e0 _] => lazymatch e0 with context [truss] => fail | _ => destruct e0 as [?v|?e|]; cbn [bind XA]; try reflexivity end end)).
    all: try match goal with |- context [let '(_, _) := ?v in _] => destruct v; cbn [bind XA]; try reflexivity end.
    all: repeat match goal with |- context [bind ?e0 _] => lazymatch e0 with context [truss] => fail | _ => destruct e0 as [?v|?e|]; cbn [bind XA]; try reflexivity end end.
    all: match goal with |- context [select_umat ?x ?y] => destruct (select_umat x y); [|reflexivity] end.
    all: rewrite truss_X; match goal with |- context [bind (XA _ _ _ ?t) _] => destruct t as [[? ?]|?|] end; cbn [bind XA]; try reflexivity.
    all: destruct (w && _); reflexivity.
  Qed.

  Lemma elem_loop_X st Ured lpf w g f h (a : AN) :
    elem_loop c st Ured lpf w (X g f h a) = match elem_loop c st Ured lpf w a with Ok b => Ok (X g f h b) | Err e => Err e | Timeout => Timeout end.
  Proof.
    unfold elem_loop. generalize (@None umat_id). generalize (el_labels (c_elems c)). intros l. revert a.
    induction l as [|e l IH]; intros a o; cbn [foldM]; [reflexivity|]. rewrite elem_step_X.
    destruct (elem_step c st Ured lpf w (a, o) e) as [[a1 o1]|x|]; cbn [bind XA]; [apply IH|reflexivity|reflexivity].
  Qed.

  Lemma prepare_X st V V0 g f h (a : AN) :
    equil_prepare c st V V0 (X g f h a) =
    match equil_prepare c st V V0 a with Ok (b, u, l) => Ok (X g f h b, u, l) | Err e => Err e | Timeout => Timeout end.
  Proof.
    unfold equil_prepare. cbv zeta. destruct st; cbn [X set_g set_fconst set_forces set_r set_K a_U a_U0 a_DOF1 a_lpf];
      repeat (match goal with |- context [bind ?e _] => destruct e; cbn [bind]; try reflexivity end).
  Qed.

  (** ** Evaluations *)
  Definition flat_as (t t' : list (list F)) : Prop :=
    length (concat t) = (3 * n)%nat /\ length (concat t') = (3 * n)%nat /\ agree D (concat t) (concat t').
  Definition SmR (a a' : AN) : Prop := a' = X (a_g a') (a_fconst a') (a_forces a') a /\ a_DOF1 a = D /\ agree D (a_g a) (a_g a').
  Definition SmS (a a' : AN) : Prop := SmR a a' /\ sizes_ok c ms a.
  Definition SmA (a a' : AN) : Prop := SmS a a' /\ flat_as (a_fconst a) (a_fconst a') /\ flat_as (a_forces a) (a_forces a').

  Lemma vflat_len3 (l : list (v3 F)) : length (vflat l) = (3 * length l)%nat.
  Proof. unfold vflat. induction l as [|x l IH]; [reflexivity|]. cbn [flat_map]. rewrite app_length, IH. cbn. lia. Qed.

  Lemma equilibrium_SmA V V0 w a a' b x : SmA a a' -> equilibrium c V V0 w a = Ok (b, x) ->
    exists b', equilibrium c V V0 w a' = Ok (b', x) /\ SmA b b'.
  Proof.
    intros (((E & ED & Ag) & Hsz) & Hf & Hh) H.
    pose proof (gequilibrium_sizes _ _ _ _ _ _ _ _ Hok Hsz H) as Hszb.
    pose proof (equilibrium_same _ _ _ _ _ _ _ H) as (Sm & _).
    unfold equilibrium in *. rewrite E. rewrite prepare_X.
    apply bind_ok in H. destruct H as ([[a1 u] l] & -> & H). cbn [bind]. rewrite elem_loop_X.
    apply bind_ok in H. destruct H as (a2 & -> & H). cbn [bind].
    apply bind_ok in H. destruct H as (s1 & H1 & H). apply bind_ok in H. destruct H as (g & H2 & H).
    apply bind_ok in H. destruct H as (gr & H3 & H). injection H as <- <-.
    destruct Sm as (_ & _ & M1 & _ & M2 & M3 & _). cbn [set_g a_DOF1 a_fconst a_forces] in M1, M2, M3.
    assert (Lr : length (vflat (a_r a2)) = (3 * n)%nat) by (rewrite vflat_len3; destruct Hszb as (_ & _ & Lr & _); cbn in Lr; rewrite Lr; reflexivity).
    change (a_r (X (a_g a') (a_fconst a') (a_forces a') a2)) with (a_r a2).
    change (a_fconst (X (a_g a') (a_fconst a') (a_forces a') a2)) with (a_fconst a').
    change (a_forces (X (a_g a') (a_fconst a') (a_forces a') a2)) with (a_forces a').
    change (a_DOF1 (X (a_g a') (a_fconst a') (a_forces a') a2)) with (a_DOF1 a2).
    destruct Hf as (F1 & F2 & F3). destruct Hh as (G1 & G2 & G3).
    rewrite bcast2_same in H1 by (rewrite map_length, M2, Lr, F1; reflexivity). injection H1 as <-.
    rewrite bcast2_same by (rewrite map_length, Lr, F2; reflexivity). cbn [bind].
    rewrite bcast2_same in H2 by (rewrite map2_len; rewrite ?map_length, ?M2, ?M3, ?Lr, ?F1, ?G1; reflexivity). injection H2 as <-.
    rewrite bcast2_same by (rewrite map2_len; rewrite ?map_length, ?Lr, ?F2, ?G2; reflexivity). cbn [bind].
    match goal with |- exists b', bind (gather ?gg _) _ = _ /\ _ => set (g' := gg) end.
    match type of H3 with gather ?gg _ = _ => set (g0 := gg) in * end.
    assert (Ag' : agree D g0 g').
    { unfold g0, g'. rewrite M2, M3. apply agree_map2; [apply agree_map2; [apply agree_refl|exact F3]|apply agree_map, G3]. }
    rewrite M1, ED in *. rewrite (agree_gather D g0 g' Ag'), H3. cbn [bind]. eexists. split; [reflexivity|].
    split; [split; [split; [reflexivity|split; [exact M1|exact Ag']]|exact Hszb]|].
    cbn [set_g X set_fconst set_forces a_fconst a_forces]. rewrite M2, M3. split; split; auto.
  Qed.

  Lemma stiffness_SmA V a a' b x : SmA a a' -> stiffness c V a = Ok (b, x) ->
    exists b', stiffness c V a' = Ok (b', x) /\ SmA b b'.
  Proof.
    intros (((E & ED & Ag) & Hsz) & Hf & Hh) H.
    pose proof (gstiffness_sizes _ _ _ _ _ _ Hok Hsz H) as Hszb.
    pose proof (stiffness_same _ _ _ _ _ H) as (Sm & _).
    assert (Eg : a_g b = a_g a).
    { clear - H. unfold stiffness in H. apply bind_ok in H. destruct H as ([[a1 u] l] & Hp & H). apply bind_ok in H. destruct H as (a2 & Hl & H).
      apply bind_ok in H. destruct H as (Kr & _ & H). injection H as <- _. cbn [set_Kred a_g].
      pose proof (elem_loop_X StK u l false (a_g a) (a_fconst a1) (a_forces a1) a1) as G.
      assert (G1 : X (a_g a) (a_fconst a1) (a_forces a1) a1 = a1).
      { unfold equil_prepare in Hp. apply bind_ok in Hp. destruct Hp as (U & _ & Hp). apply bind_ok in Hp. destruct Hp as (U0 & _ & Hp). injection Hp as <- _ _. reflexivity. }
      rewrite G1, Hl in G. injection G as G. rewrite G. reflexivity. }
    unfold stiffness in *. rewrite E. rewrite prepare_X.
    apply bind_ok in H. destruct H as ([[a1 u] l] & -> & H). cbn [bind]. rewrite elem_loop_X.
    apply bind_ok in H. destruct H as (a2 & -> & H). cbn [bind].
    change (a_K (X (a_g a') (a_fconst a') (a_forces a') a2)) with (a_K a2). change (a_DOF1 (X (a_g a') (a_fconst a') (a_forces a') a2)) with (a_DOF1 a2).
    apply bind_ok in H. destruct H as (Kr & -> & H). cbn [bind]. injection H as <- <-.
    destruct Sm as (_ & _ & M1 & _ & M2 & M3 & _). eexists. split; [reflexivity|].
    split; [split; [split; [reflexivity|split; [rewrite M1; exact ED|]]|exact Hszb]|].
    - rewrite Eg. exact Ag.
    - rewrite M2, M3. split; assumption.
  Qed.

  (** ** Runs *)
  Lemma SmR_lift {k : AN -> AN} a a' : (forall g f h x, k (X g f h x) = X g f h (k x)) -> (forall x, a_g (k x) = a_g x) -> (forall x, a_DOF1 (k x) = a_DOF1 x) ->
    (forall x, a_fconst (k x) = a_fconst x) -> (forall x, a_forces (k x) = a_forces x) -> SmR a a' -> SmR (k a) (k a').
  Proof.
    intros K1 K2 K3 K4 K5 (E & ED & Ag). split; [|split; [rewrite K3; exact ED|rewrite !K2; exact Ag]].
    rewrite K2, K4, K5. rewrite <- K1, <- E. reflexivity.
  Qed.
  Lemma SmA_lift {k : AN -> AN} a a' : (forall g f h x, k (X g f h x) = X g f h (k x)) -> (forall x, a_g (k x) = a_g x) -> (forall x, a_DOF1 (k x) = a_DOF1 x) ->
    (forall x, a_fconst (k x) = a_fconst x) -> (forall x, a_forces (k x) = a_forces x) -> (forall x, sizes_ok c ms x -> sizes_ok c ms (k x)) -> SmA a a' -> SmA (k a) (k a').
  Proof.
    intros K1 K2 K3 K4 K5 K6 ((HR & Hsz) & Hf & Hh). split; [split; [apply SmR_lift; assumption|apply K6, Hsz]|]. rewrite !K4, !K5. split; assumption.
  Qed.
  Ltac lift := first [apply SmA_lift | apply SmR_lift]; try (intros; reflexivity); try (intros x Hx; exact Hx); try assumption.

  Lemma path_SmA Ured a a' d j jpre cfg fuel t : SmA a a' ->
    pathfollow solve argsortF (equilibrium c) (stiffness c) Ured a d j jpre cfg fuel = Ok t ->
    exists t', pathfollow solve argsortF (equilibrium c) (stiffness c) Ured a' d j jpre cfg fuel = Ok t' /\ pf_sim SmA t t'.
  Proof.
    intros HS H. revert H.
    apply (pathfollow_sim solve argsortF (equilibrium c) (equilibrium c) (stiffness c) (stiffness c) SmA).
    - intros V V0 w x x' Hx b y E. eapply equilibrium_SmA; eauto.
    - intros V x x' Hx b y E. eapply stiffness_SmA; eauto.
    - intros v x x' Hx. apply (SmA_lift (k := set_j v)); try (intros; reflexivity); try (intros y Hy; exact Hy); exact Hx.
    - intros v x x' Hx. apply (SmA_lift (k := set_Kmod v)); try (intros; reflexivity); try (intros y Hy; exact Hy); exact Hx.
    - intros v x x' Hx. apply (SmA_lift (k := set_dVmax v)); try (intros; reflexivity); try (intros y Hy; exact Hy); exact Hx.
    - intros v x x' Hx. apply (SmA_lift (k := set_lpf v)); try (intros; reflexivity); try (intros y Hy; exact Hy); exact Hx.
    - intros v x x' Hx. apply (SmA_lift (k := set_Ured v)); try (intros; reflexivity); try (intros y Hy; exact Hy); exact Hx.
    - intros v x x' Hx. apply (SmA_lift (k := set_Vred v)); try (intros; reflexivity); try (intros y Hy; exact Hy); exact Hx.
    - intros x x' (((E & _) & _) & _). rewrite E. reflexivity.
    - exact HS.
  Qed.

  (** *** Loads of a step *)
  Variables (rows rows' : list (list F)) (w : nat).
  Hypotheses (Hw : forall r, In r rows -> length r = w) (Hw' : forall r, In r rows' -> length r = w)
    (Hn : length rows = n) (Hn' : length rows' = n).
  Hypothesis Hag : forall s, (3 * S s <= w)%nat -> agree D (concat (block s rows)) (concat (block s rows')).

  Definition three (t : list (list F)) : Prop := length t = n /\ forall r, In r t -> length r = 3%nat.
  Lemma block_three rs s : (forall r, In r rs -> length r = w) -> length rs = n -> (3 * S s <= w)%nat -> three (block s rs).
  Proof.
    intros H1 H2 Hs. split; [unfold block; rewrite map_length; exact H2|]. intros r Hr. unfold block in Hr. apply in_map_iff in Hr. destruct Hr as (x & <- & Hx).
    rewrite firstn_length, skipn_length, (H1 x Hx). lia.
  Qed.
  Lemma three_len t : three t -> length (concat t) = (3 * n)%nat.
  Proof.
    intros [L H]. rewrite <- L. clear L. induction t as [|r t IH]; [reflexivity|]. cbn [concat length]. rewrite app_length, IH by (intros x Hx; apply H; right; exact Hx).
    rewrite (H r (or_introl eq_refl)). lia.
  Qed.
  Lemma concat_map2 (f : F -> F -> F) : forall t u, length t = length u -> (forall r, In r t -> length r = 3%nat) -> (forall r, In r u -> length r = 3%nat) ->
    concat (map2 (fun a b => map2 f a b) t u) = map2 f (concat t) (concat u).
  Proof.
    induction t as [|r t IH]; intros [|q u] L H1 H2; try discriminate; [reflexivity|]. cbn [map2 concat].
    rewrite IH; [|cbn in L; lia|intros x Hx; apply H1; right; exact Hx|intros x Hx; apply H2; right; exact Hx].
    pose proof (H1 r (or_introl eq_refl)) as A. pose proof (H2 q (or_introl eq_refl)) as B.
    destruct r as [|x1 [|x2 [|x3 [|]]]]; try discriminate. destruct q as [|y1 [|y2 [|y3 [|]]]]; try discriminate. reflexivity.
  Qed.
  Lemma In_map2 {A B C} (f : A -> B -> C) : forall l m x, In x (map2 f l m) -> exists a b, In a l /\ In b m /\ x = f a b.
  Proof.
    induction l as [|a l IH]; intros [|b m] x H; try destruct H as [].
    - exists a, b. repeat split; [left|left|]; auto.
    - destruct (IH _ _ H) as (a' & b' & A1 & A2 & A3). exists a', b'. repeat split; [right|right|]; auto.
  Qed.
  Lemma scaled_three acc l blk : three acc -> three blk -> exists r, add_scaled acc l blk = Ok r /\ three r /\ concat r = map2 (fun x y => fadd x (fmul l y)) (concat acc) (concat blk).
  Proof.
    intros [L1 H1] [L2 H2]. unfold add_scaled.
    assert (G : forallb (fun p => Nat.eqb (length (fst p)) (length (snd p))) (combine acc blk) = true).
    { apply forallb_forall. intros [x y] Hin. cbn [fst snd]. rewrite (H1 x), (H2 y); [reflexivity|eapply in_combine_r; exact Hin|eapply in_combine_l; exact Hin]. }
    rewrite G. eexists. split; [reflexivity|]. split; [|apply concat_map2; [congruence|assumption|assumption]].
    split; [rewrite map2_len; congruence|]. intros r Hr. apply In_map2 in Hr. destruct Hr as (x & y & Hx & Hy & ->). rewrite map2_len; rewrite ?(H1 x Hx), ?(H2 y Hy); reflexivity.
  Qed.

  Lemma const_three lpfs : forall ss acc acc' fc, (forall s, In s ss -> (3 * S s <= w)%nat) -> three acc -> three acc' -> agree D (concat acc) (concat acc') ->
    foldM (fun acc s => match nth_error lpfs s with None => Err IndexError | Some l => add_scaled acc l (block s rows) end) ss acc = Ok fc ->
    exists fc', foldM (fun acc s => match nth_error lpfs s with None => Err IndexError | Some l => add_scaled acc l (block s rows') end) ss acc' = Ok fc' /\
      three fc /\ three fc' /\ agree D (concat fc) (concat fc').
  Proof.
    induction ss as [|s ss IH]; intros acc acc' fc Hs T T' Ag H; cbn [foldM] in *.
    - injection H as <-. exists acc'. auto.
    - pose proof (Hs s (or_introl eq_refl)) as Hs0. destruct (nth_error lpfs s) as [l|]; [|discriminate].
      destruct (scaled_three acc l (block s rows) T (block_three rows s Hw Hn Hs0)) as (r & R1 & R2 & R3).
      destruct (scaled_three acc' l (block s rows') T' (block_three rows' s Hw' Hn' Hs0)) as (r' & R1' & R2' & R3').
      rewrite R1 in H. rewrite R1'. cbn [bind] in *. apply (IH r r'); [intros q Hq; apply Hs; right; exact Hq|exact R2|exact R2'| |exact H].
      rewrite R3, R3'. apply agree_map2; [exact Ag|apply Hag, Hs0].
  Qed.

  Definition rs_as (s s' : runst F) : Prop :=
    SmS (r_an s) (r_an s') /\ Forall2 SmR (r_R s) (r_R s') /\ r_lpf_end s' = r_lpf_end s /\ r_out s' = r_out s.

  Lemma setup_as s s' step an : rs_as s s' -> (3 * S step <= w)%nat -> step_setup rows step s = Ok an ->
    exists an', step_setup rows' step s' = Ok an' /\ SmA an an'.
  Proof.
    intros ((HR & Hsz) & _ & EL & _) Hs H. unfold step_setup in *. rewrite EL.
    apply bind_ok in H. destruct H as (fc & Hfc & H). apply bind_ok in H. destruct H as (fr & Hfr & H). injection H as <-.
    unfold const_forces in *.
    pose proof (block_three rows step Hw Hn Hs) as T. pose proof (block_three rows' step Hw' Hn' Hs) as T'.
    assert (Z : forall t, three t -> three (map (map (fun _ : F => f0)) t)).
    { intros t [L1 L2]. split; [rewrite map_length; exact L1|]. intros r Hr. apply in_map_iff in Hr. destruct Hr as (x & <- & Hx). rewrite map_length. auto. }
    destruct (const_three (r_lpf_end s) (seq 0 step) (map (map (fun _ => f0)) (block step rows)) (map (map (fun _ => f0)) (block step rows')) fc) as (fc' & E' & T1 & T2 & Ag).
    - intros q Hq. apply in_seq in Hq. lia.
    - apply Z, T.
    - apply Z, T'.
    - rewrite <- !concat_map. intros p Hp. rewrite !nth_error_map, (Hag step Hs p Hp). reflexivity.
    - exact Hfc.
    - rewrite E'. cbn [bind]. destruct HR as (E & ED & Eg).
      assert (ED' : a_DOF1 (r_an s') = D) by (rewrite E; exact ED). rewrite ED'. rewrite ED in Hfr.
      rewrite (agree_gather D _ _ (Hag step Hs)), Hfr. cbn [bind]. eexists. split; [reflexivity|].
      split; [split; [split; [|split; [exact ED|exact Eg]]|exact Hsz]|].
      + rewrite E. reflexivity.
      + split; (split; [apply three_len; assumption|split; [apply three_len; assumption|]]); [exact Ag|apply Hag, Hs].
  Qed.

  Lemma writes_as (l l' : list AN) : Forall2 SmR l l' -> forall R0 R0' : list AN, Forall2 SmR R0 R0' ->
    Forall2 SmR (fold_left write_result l R0) (fold_left write_result l' R0').
  Proof.
    induction 1 as [|x y l l' Hx H IH]; intros R0 R0' HR0; cbn [fold_left]; auto.
    apply IH. unfold write_result. apply Forall2_app; [apply Forall2_removelast, HR0|]. constructor; [exact Hx|]. constructor; [exact Hx|constructor].
  Qed.

  Lemma step_as st nsteps fuel s s' step t : (3 * S step <= w)%nat -> rs_as s s' ->
    run_step argsortF solve c st rows nsteps fuel s step = Ok t ->
    exists t', run_step argsortF solve c st rows' nsteps fuel s' step = Ok t' /\ rs_as t t'.
  Proof.
    intros Hs HS H. pose proof HS as (S1 & SR & EL & EO). unfold run_step in *.
    apply bind_ok in H. destruct H as (incs & -> & H). cbn [bind].
    apply bind_ok in H. destruct H as (xl & -> & H). cbn [bind].
    apply bind_ok in H. destruct H as (an & Han & H).
    destruct (setup_as s s' step an HS Hs Han) as (an' & -> & San). cbn [bind].
    assert (EU : a_Ured an' = a_Ured an) by (destruct San as (((E & _) & _) & _); rewrite E; reflexivity). rewrite EU.
    apply bind_ok in H. destruct H as (pf & Hpf & H).
    destruct (path_SmA _ _ _ _ _ _ _ _ _ San Hpf) as (pf' & Hpf' & PS).
    change (fun V V0 w a => equilibrium c V V0 w a) with (equilibrium c).
    change (fun U a => stiffness c U a) with (stiffness c). rewrite Hpf'. cbn [bind].
    destruct PS as (PA & _ & _ & _ & _ & _ & PR & PO). cbv zeta in *.
    assert (HR1 : Forall2 SmR (fold_left write_result (map snd (tl (ps_res pf))) (r_R s))
                              (fold_left write_result (map snd (tl (ps_res pf'))) (r_R s'))).
    { apply writes_as; [|exact SR]. destruct PR as [|x y l l' _ Hl]; [constructor|]. cbn [tl]. clear - Hl.
      induction Hl as [|u v l l' [_ Hu] H IH]; cbn [map]; constructor; [apply Hu|exact IH]. }
    set (R1 := fold_left write_result (map snd (tl (ps_res pf))) (r_R s)) in *.
    set (R1' := fold_left write_result (map snd (tl (ps_res pf'))) (r_R s')) in *.
    assert (HR2 : Forall2 SmR (copy_U_last R1) (copy_U_last R1')).
    { unfold copy_U_last. destruct (Forall2_rev' _ _ _ HR1) as [|x y l l' Hx _]; [constructor|].
      apply Forall2_app; [apply Forall2_removelast, HR1|]. constructor; [|constructor].
      apply (SmR_lift (k := fun z => set_U0 (a_U z) z)); try (intros; reflexivity). exact Hx. }
    apply bind_ok in H. destruct H as (lpf & Hlpf & H).
    assert (Hl' : match rev (copy_U_last R1') with [] => Err IndexError | a :: _ => Ok (a_lpf a) end = Ok lpf).
    { destruct (Forall2_rev' _ _ _ HR2) as [|x y l l' Hx _]; [discriminate|].
      injection Hlpf as <-. f_equal. destruct Hx as (E & _). rewrite E. reflexivity. }
    rewrite Hl'. cbn [bind]. rewrite EL, EO, PO. destruct PA as (PA & _).
    destruct (Nat.ltb (step + 1) nsteps).
    - injection H as <-. eexists. split; [reflexivity|]. unfold rs_as. cbn [r_an r_R r_lpf_end r_out]. split; [|auto].
      destruct PA as [PA Psz]. split; [|exact Psz].
      apply (SmR_lift (k := fun z => set_lpf f0 (set_Vred (zero_last (a_Vred z)) z))); try (intros; reflexivity). exact PA.
    - injection H as <-. eexists. split; [reflexivity|]. unfold rs_as. cbn [r_an r_R r_lpf_end r_out]. split; [exact PA|].
      split; [apply Forall2_removelast, HR2|auto].
  Qed.

  Lemma steps_as st nsteps fuel l : (forall k, In k l -> (3 * S k <= w)%nat) -> forall s s' t, rs_as s s' ->
    foldM (run_step argsortF solve c st rows nsteps fuel) l s = Ok t ->
    exists t', foldM (run_step argsortF solve c st rows' nsteps fuel) l s' = Ok t' /\ rs_as t t'.
  Proof.
    induction l as [|k l IH]; intros Hl s s' t HS H; cbn [foldM] in *.
    - injection H as <-. eauto.
    - apply bind_ok in H. destruct H as (s1 & H1 & H).
      destruct (step_as _ _ _ _ _ _ _ (Hl k (or_introl eq_refl)) HS H1) as (s1' & -> & S1). cbn [bind]. eapply IH; [|exact S1|exact H].
      intros q Hq. apply Hl. right. exact Hq.
  Qed.

  Definition model_as (m m' : model F) : Prop :=
    m_set m' = m_set m /\
    exists u u' nh eh fh fh', m_built m = Some u /\ m_built m' = Some u' /\
      m_nodes m = Some nh /\ m_nodes m' = Some nh /\ m_elems m = Some eh /\ m_elems m' = Some eh /\
      m_forces m = Some fh /\ m_forces m' = Some fh' /\ e_rows fh = rows /\ e_rows fh' = rows' /\
      c = ctx_of m u nh eh /\
      SmS (u_an u) (u_an u') /\ Forall2 SmR (u_R u) (u_R u') /\ u_lpf_end u' = u_lpf_end u /\
      u_nnodes u' = u_nnodes u /\ u_ndof1 u' = u_ndof1 u.

  Lemma run_as m m' fuel m1 out : enough_columns w (m_set m) -> model_as m m' -> run argsortF solve m fuel = Ok (m1, out) ->
    exists m1', run argsortF solve m' fuel = Ok (m1', out) /\ model_as m1 m1' /\ m_set m1 = m_set m.
  Proof.
    intros Hc (Es & u & u' & nh & eh & fh & fh' & Eu & Eu' & En & En' & Ee & Ee' & Ef & Ef' & Er & Er' & Ec & HS & HR & HL & HN & HN1) H.
    unfold run in *. cbv zeta in *. rewrite Es, Eu', En', Ee', Ef'. rewrite Eu, En, Ee, Ef in H.
    destruct (_ && _); [discriminate|]. destruct (_ && _ && _); [discriminate|].
    destruct HR as [|r0 r0' rest rest' Hr0 Hrest]; [discriminate|].
    assert (E1 : Ctx (n_labels nh) (n_coords nh) eh (u_nnodes u) (u_ndof1 u) (s_nstatev (m_set m)) = c) by (symmetry; exact Ec).
    rewrite HN, HN1. rewrite E1 in *. rewrite Er in H. rewrite Er'.
    apply bind_ok in H. destruct H as (s & H1 & H).
    edestruct steps_as as (s' & Hs' & SS); [| |exact H1|].
    3:{ rewrite Hs'. cbn [bind]. injection H as <- <-. destruct SS as (A1 & A2 & A3 & A4). rewrite A4.
        eexists. split; [reflexivity|]. split; [|reflexivity]. split; [reflexivity|].
        do 6 eexists. cbn [m_built m_nodes m_elems m_forces].
        do 8 (split; [reflexivity|]). split; [exact Er|]. split; [exact Er'|].
        split; [symmetry; exact E1|]. cbn. repeat (split; [assumption|]). split; reflexivity. }
    - intros k Hk. apply in_seq in Hk. unfold enough_columns in Hc. lia.
    - unfold rs_as. cbn [r_an r_R r_lpf_end r_out]. rewrite HL. split; [|split; [constructor; [exact Hr0|constructor; assumption]|auto]].
      destruct HS as [HS Hsz]. split; [|exact Hsz].
      apply (SmR_lift (k := fun z => set_lpf f0 (set_Vred (a_Ured z ++ [f0]) z))); try (intros; reflexivity). exact HS.
  Qed.

  Lemma play_as acts : Forall (enough_for w) acts -> forall m m' m1 out, enough_columns w (m_set m) -> model_as m m' -> play argsortF solve acts m = Ok (m1, out) ->
    exists m1', play argsortF solve acts m' = Ok (m1', out) /\ model_as m1 m1'.
  Proof.
    induction 1 as [|act acts Ha Hacts IH]; intros m m' m1 out Hc HS H; cbn [play] in *.
    - injection H as <- <-. eauto.
    - destruct act as [fuel|st].
      + apply bind_ok in H. destruct H as ([m2 o2] & H1 & H).
        destruct (run_as _ _ _ _ _ Hc HS H1) as (m2' & -> & S2 & E2). cbn [bind].
        apply bind_ok in H. destruct H as ([m3 o3] & H2 & H).
        destruct (IH _ _ _ _ ltac:(rewrite E2; exact Hc) S2 H2) as (m3' & -> & S3). cbn [bind]. injection H as <- <-. eauto.
      + eapply IH; [| |exact H]; [exact Ha|]. destruct HS as (Es & u & u' & nh & eh & fh & fh' & Rest). rewrite Es.
        split; [reflexivity|]. exists u, u', nh, eh, fh, fh'.
        destruct Rest as (Eu & Eu' & En & En' & Ee & Ee' & Ef & Ef' & Er & Er' & Ec & HS).
        cbn [m_built m_nodes m_elems m_forces with_settings]. do 10 (split; [assumption|]).
        split; [exact Ec|exact HS].
  Qed.
End Sim.

(** ** Both models after build *)
Lemma nth_error_concat3 {A} : forall (t : list (list A)) i q r, (forall x, In x t -> length x = 3%nat) -> (q < 3)%nat -> nth_error t i = Some r ->
  nth_error (concat t) (3 * i + q) = nth_error r q.
Proof.
  induction t as [|x t IH]; intros [|i] q r H Hq E; try discriminate; cbn [nth_error concat] in *; pose proof (H x (or_introl eq_refl)) as Hx.
  - injection E as ->. rewrite nth_error_app1 by lia. reflexivity.
  - rewrite nth_error_app2 by lia. rewrite Hx. replace (3 * S i + q - 3)%nat with (3 * i + q)%nat by lia. apply IH; [intros y Hy; apply H; right; exact Hy|exact Hq|exact E].
Qed.

Lemma nth_error_block {A} (row : list A) s q : (q < 3)%nat -> nth_error (firstn 3 (skipn (3 * s) row)) q = nth_error row (3 * s + q).
Proof.
  intros Hq. generalize (3 * s)%nat. intros k. revert row. induction k as [|k IH]; intros row.
  - cbn [skipn Nat.add]. destruct row as [|a [|b [|c r]]]; destruct q as [|[|[|q]]]; try reflexivity; lia.
  - destruct row as [|a row]; cbn [skipn Nat.add nth_error]; [destruct q as [|[|[|]]]; reflexivity|apply IH].
Qed.

Section Build.
  Context {F : Type} `{NF : Num F}.
  Variables (argsortZ : list Z -> list nat).

  Lemma build_as m m' ns ms bs fs fs' fh0 fh0' mb mb' :
    argsort_ok argsortZ -> described m ns ms bs fs -> described m' ns ms bs fs' ->
    m_nodes m' = m_nodes m -> m_elems m' = m_elems m -> m_bounds m' = m_bounds m -> m_set m' = m_set m ->
    m_forces m = Some fh0 -> m_forces m' = Some fh0' -> e_width fh0' = e_width fh0 ->
    same_on_free (e_width fh0) ns bs fs fs' ->
    build argsortZ m = Ok mb -> build argsortZ m' = Ok mb' ->
    exists c D rows rows', truss_ok c ms /\ (forall r, In r rows -> length r = e_width fh0) /\ (forall r, In r rows' -> length r = e_width fh0) /\
      length rows = length (c_labels c) /\ length rows' = length (c_labels c) /\
      (forall s, (3 * S s <= e_width fh0)%nat -> agree D (concat (block s rows)) (concat (block s rows'))) /\
      model_as c ms D rows rows' mb mb' /\ s_nsteps (m_set mb) = s_nsteps (m_set m).
  Proof.
    intros HA Hd Hd' Xn Xe Xb Xs Xf Xf' Xw Hsame Hb Hb'.
    destruct (build_reached _ _ _ _ _ _ _ HA Hd Hb) as (nh & eh & fh & u & ns1 & B1 & B2 & B3 & B4 & N & P & W & Fa & Tr & _ & _ & _ & _ & _ & _ & _ & Re).
    destruct (build_reached _ _ _ _ _ _ _ HA Hd' Hb') as (nh' & eh' & fh' & u' & ns1' & B1' & B2' & B3' & B4' & N' & P' & W' & Fa' & _).
    pose proof (W fh0 Xf) as W0. pose proof (W' fh0' Xf') as W0'.
    pose proof Hd as (Hns & Hbs & Hfs & _ & H2 & Hnd & _ & H3 & _).
    destruct (build_tables _ _ _ _ _ _ HA Hns Hbs Hfs Hnd H2 Hb) as (Mb & _ & ns2 & w2 & Hns2 & Hp2 & _ & Hb2 & _).
    assert (Hlen : length ns2 = length ns) by (apply Permutation_length, Hp2).
    destruct (build_dofs _ _ _ _ HA Hb Hb2) as (u2 & Eu2 & HD1 & _).
    { unfold rows_for. rewrite !map_length. lia. }
    { intros r Hr. unfold rows_for in Hr. rewrite map_map in Hr. apply in_map_iff in Hr. destruct Hr as (l & <- & _).
      cbn [snd]. destruct (in_dec Z.eq_dec l (map fst bs)) as [Hi|Hi].
      - apply in_map_iff in Hi. destruct Hi as ([l' v] & E & Hi). cbn in E. subst l'.
        rewrite (row_for_In bs _ l v (proj1 Mb) Hi). apply H3. apply in_map_iff. exists (l, v). auto.
      - rewrite row_for_notin by exact Hi. reflexivity. }
    assert (u2 = u) by congruence. subst u2.
    destruct (build_inv _ _ _ Hb) as (nh0 & eh0 & nh1 & bh & fh1 & D0 & D1 & an & E1 & E2 & En & Eb & Eo & C1 & C2 & Hd0 & Hd1 & Han & Em). cbv zeta in *.
    destruct (build_inv _ _ _ Hb') as (nh0' & eh0' & nh1' & bh' & fh1' & D0' & D1' & an' & E1' & E2' & En' & Eb' & Eo' & C1' & C2' & Hd0' & Hd1' & Han' & Em'). cbv zeta in *.
    assert (nh0' = nh0) by congruence. subst nh0'. assert (eh0' = eh0) by congruence. subst eh0'.
    assert (nh1' = nh1) by congruence. subst nh1'.
    assert (bh' = bh) by (rewrite Xb, Eb in Eb'; injection Eb' as ->; reflexivity). subst bh'.
    assert (D0' = D0) by congruence. subst D0'. assert (D1' = D1) by congruence. subst D1'.
    rewrite Xs in Han', Em'. assert (an' = an) by congruence. subst an'.
    rewrite Em in B1, B2, B3, B4. rewrite Em' in B1', B2', B3', B4'. cbn [m_nodes m_elems m_forces m_built] in B1, B2, B3, B4, B1', B2', B3', B4'.
    injection B1 as <-. injection B2 as <-. injection B3 as <-. injection B1' as <-. injection B2' as <-. injection B3' as <-. injection B4 as <-. injection B4' as <-.
    assert (L1 : n_labels nh1 = map fst ns1) by (rewrite Em in N; apply (proj1 N)).
    assert (L1' : n_labels nh1 = map fst ns1') by (rewrite Em' in N'; apply (proj1 N')).
    assert (L2 : n_labels nh1 = map fst ns2) by (rewrite Em in Hns2; apply (proj1 Hns2)).
    rewrite Em in Fa. cbn [m_forces] in Fa. rewrite Em' in Fa'. cbn [m_forces] in Fa'.
    destruct Fa as (Fn & Fr & Fw). destruct Fa' as (Fn' & Fr' & Fw'). rewrite Forall_forall in Fw, Fw'.
    rewrite <- L1 in Fr. rewrite <- L1' in Fr'.
    eexists (ctx_of mb _ nh1 eh0), D1, (e_rows fh1), (e_rows fh1').
    assert (Q1 : forall r, In r (e_rows fh1) -> length r = e_width fh0) by (intros r Hr; rewrite W0; apply Fw, Hr).
    assert (Q2 : forall r, In r (e_rows fh1') -> length r = e_width fh0) by (intros r Hr; rewrite <- Xw, W0'; apply Fw', Hr).
    split; [exact Tr|]. split; [exact Q1|]. split; [exact Q2|].
    split; [rewrite Fr; unfold rows_for; rewrite !map_length; reflexivity|].
    split; [rewrite Fr'; unfold rows_for; rewrite !map_length; reflexivity|]. split; [|split].
    - intros s Hs p Hp.
      assert (Hp' : In p (a_DOF1 an)) by (clear - Hp Han; unfold analysis_build in Han; apply bind_ok in Han; destruct Han as (ur & _ & Han); injection Han as <-; exact Hp).
      cbn [u_an] in HD1. apply HD1 in Hp'. destruct Hp' as (r & Hr & Hr1).
      unfold rows_for in Hr. rewrite <- L2, map_map in Hr. cbn [snd] in Hr. rewrite nth_error_map in Hr.
      destruct (nth_error (n_labels nh1) (p / 3)) as [l|] eqn:El; [|discriminate]. cbn in Hr. injection Hr as <-.
      assert (Hq : (p mod 3 < 3)%nat) by (apply Nat.mod_upper_bound; lia).
      assert (Ep : p = (3 * (p / 3) + p mod 3)%nat) by (apply Nat.div_mod; lia).
      assert (G : forall fs0 d rs, rs = map snd (rows_for fs0 d (n_labels nh1)) -> (forall r, In r rs -> length r = e_width fh0) ->
        nth_error (concat (block s rs)) p = Some (nth (3 * s + p mod 3) (row_for fs0 d l) f0)).
      { intros fs0 d rs Ers Hrs. assert (Erow : nth_error rs (p / 3) = Some (row_for fs0 d l)).
        { rewrite Ers. unfold rows_for. rewrite map_map. cbn [snd]. rewrite nth_error_map, El. reflexivity. }
        rewrite Ep at 1. rewrite (nth_error_concat3 _ _ _ (firstn 3 (skipn (3 * s) (row_for fs0 d l)))).
        - rewrite nth_error_block by exact Hq. apply nth_error_nth'. rewrite (Hrs _ (nth_error_In _ _ Erow)). lia.
        - intros x Hx. unfold block in Hx. apply in_map_iff in Hx. destruct Hx as (y & <- & Hy). rewrite firstn_length, skipn_length, (Hrs y Hy). lia.
        - exact Hq.
        - unfold block. rewrite nth_error_map, Erow. reflexivity. }
      rewrite (G _ _ _ Fr Q1), (G _ _ _ Fr' Q2). f_equal. rewrite <- W0', Xw, <- W0. apply Hsame.
      + eapply Permutation_in; [apply Permutation_map, P|]. rewrite <- L1. eapply nth_error_In, El.
      + exact Hq.
      + unfold free_component. apply nth_error_nth with (d := 0%Z) in Hr1. exact Hr1.
    - split; [rewrite Em, Em'; reflexivity|]. do 6 eexists. rewrite Em, Em'. cbn [m_built m_nodes m_elems m_forces u_an u_R u_lpf_end u_nnodes u_ndof1].
      do 10 (split; [reflexivity|]). split; [reflexivity|].
      assert (ED : a_DOF1 an = D1) by (clear - Han; unfold analysis_build in Han; apply bind_ok in Han; destruct Han as (ur & _ & Han); injection Han as <-; reflexivity).
      split; [|split; [|auto]].
      + split; [split; [destruct an; reflexivity|split; [exact ED|apply agree_refl]]|]. rewrite Em in Re. destruct Re as (Hsz & _). exact Hsz.
      + constructor; [|constructor]. split; [reflexivity|]. split; [exact ED|apply agree_refl].
    - rewrite Em. reflexivity.
  Qed.
End Build.
