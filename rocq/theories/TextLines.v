(** * What the lines of a run can say *)
From Coq Require Import List ZArith Bool Arith Lia.
Import ListNotations.
From Verif Require Import Num Vec Handlers Material Analysis Truss Equil Solver Run Text SpecSolver SpecRun SpecText TextFacts.

Section Lines.
  Context {F : Type} `{NF : Num F}.
  Variable argsortF : list F -> list nat.
  Variable solve : list (list F) -> list F -> list F.
  Variable st : settings F.
  Notation Q := (line_true st).
  Notation L := (line F).

  (** Every line is true of the settings and a value returned satisfies [R]. *)
  Definition tells {A} (R : A -> Prop) (m : told L A) : Prop := Forall Q (fst m) /\ forall a, snd m = Ok a -> R a.
  Notation honest := (tells (fun _ => True)).

  Lemma tells_quiet {A} (R : A -> Prop) (r : res A) : (forall a, r = Ok a -> R a) -> tells R (quiet r).
  Proof. intros H. split; [constructor|exact H]. Qed.
  Lemma honest_quiet {A} (r : res A) : honest (@quiet L A r).
  Proof. apply tells_quiet. auto. Qed.
  Lemma tells_say ls : Forall Q ls -> honest (say ls).
  Proof. intros H. split; [exact H|auto]. Qed.
  Lemma tells_bind {A B} (R : A -> Prop) (P : B -> Prop) (m : told L A) (k : A -> told L B) :
    tells R m -> (forall a, R a -> tells P (k a)) -> tells P (tbind m k).
  Proof.
    intros [H1 H2] H. unfold tbind. destruct m as [t [a|e|]]; cbn in *.
    - destruct (H a (H2 a eq_refl)) as [H3 H4]. split; [apply Forall_app; auto|exact H4].
    - split; [exact H1|discriminate].
    - split; [exact H1|discriminate].
  Qed.
  Lemma tells_quiet_bind {A B} (P : B -> Prop) (r : res A) (k : A -> told L B) :
    (forall a, r = Ok a -> tells P (k a)) -> tells P (tbind (quiet r) k).
  Proof. intros H. apply tells_bind with (R := fun a => r = Ok a); [apply tells_quiet; auto|exact H]. Qed.
  Lemma tells_say_bind {B} (P : B -> Prop) ls (k : unit -> told L B) :
    Forall Q ls -> tells P (k tt) -> tells P (tbind (say ls) k).
  Proof. intros H G. apply tells_bind with (R := fun _ => True); [now apply tells_say|intros [] _; exact G]. Qed.
  Lemma above_Q v k (ls : list L) : Forall Q ls -> Forall Q (above v k ls).
  Proof. intros H. unfold above. destruct (_ <? _)%Z; auto. Qed.

  Lemma newton_loop_tells {S : Type} v fn dfn ftol xtol k : forall n x prev (s : S),
    (0 <= n)%Z -> (n + Z.of_nat k <= s_nfev st)%Z -> (prev = None <-> n = 0%Z) ->
    tells (fun r => 1 <= no_n (snd r) <= n + Z.of_nat k)%Z (newton_loop_t solve v fn dfn ftol xtol k n x prev s).
  Proof.
    induction k as [|k IH]; intros n x prev s H0 Hn Hp; cbn [newton_loop_t].
    - destruct prev as [[a b]|]; apply tells_quiet; [|discriminate]. intros r E. injection E as <-. cbn.
      assert (n <> 0%Z) by (intros E; apply Hp in E; discriminate). lia.
    - do 2 (apply tells_quiet_bind; intros [? ?] _). apply tells_quiet_bind. intros x' _.
      apply tells_quiet_bind. intros [s3 fv'] _. apply tells_say_bind.
      + apply above_Q. constructor; [|constructor]. cbn. lia.
      + destruct (_ && _).
        * apply tells_quiet. intros r E. injection E as <-. cbn. lia.
        * assert (G : tells (fun r => 1 <= no_n (snd r) <= (n + 1) + Z.of_nat k)%Z
            (newton_loop_t solve v fn dfn ftol xtol k (n + 1) x' (Some (fnorm fv', fnorm (solve l (map fopp l0)))) s3)).
          { apply IH; [lia|lia|]. split; [discriminate|lia]. }
          destruct G as [G1 G2]. split; [exact G1|]. intros r E. specialize (G2 r E). lia.
  Qed.

  Lemma newton_tells {S : Type} v fn dfn x nfev ftol xtol (s : S) : (nfev <= s_nfev st)%Z ->
    tells (fun r => 1 <= no_n (snd r) <= nfev)%Z (newton_t solve v fn dfn x nfev ftol xtol s).
  Proof.
    intros H. unfold newton_t. destruct (Z.leb_spec 0 nfev) as [Hn|Hn].
    - pose proof (newton_loop_tells v fn dfn ftol xtol (Z.to_nat nfev) 0%Z x None s ltac:(lia) ltac:(lia) ltac:(tauto)) as [G1 G2].
      split; [exact G1|]. intros r E. specialize (G2 r E). lia.
    - replace (Z.to_nat nfev) with 0 by lia. cbn. apply tells_quiet. discriminate.
  Qed.

  Variable cfg : pfcfg F.
  Hypothesis Hsc : cf_stepcontrol cfg = s_stepcontrol st.
  Hypothesis Hrd : cf_reduce cfg = s_reduce st.
  Hypothesis Hin : cf_increase cfg = s_increase st.
  Hypothesis Hnf : cf_nfev cfg = s_nfev st.

  Lemma dxmax_tells dxmax dxmax0 j j0 z ok b n nfev : s_stepcontrol st = true ->
    (1 <= n <= nfev)%Z -> (nfev <= s_nfev st)%Z ->
    honest (dxmax_control_t cfg dxmax dxmax0 j j0 z ok b n nfev).
  Proof.
    intros Hs Hn HN. unfold dxmax_control_t.
    do 2 (apply tells_quiet_bind; intros ? _). destruct (negb ok).
    - destruct (fltb _ _); [|apply honest_quiet]. cbv zeta. apply tells_say_bind.
      + constructor; [|constructor]. destruct (_ =? _)%Z; cbn; exact Hs.
      + destruct (_ || _); [|apply honest_quiet]. destruct (feqb _ _) eqn:E; [apply honest_quiet|].
        apply tells_say_bind; [|apply honest_quiet]. constructor; [|constructor]. cbn. rewrite Hrd in *. auto.
    - destruct (fltb _ _); [|destruct (_ =? _)%Z; apply honest_quiet].
      destruct (_ =? _)%Z; [|apply honest_quiet]. destruct (0 <? z)%Z; [apply honest_quiet|].
      destruct (Z.leb_spec b 3); (apply tells_say_bind; [|apply honest_quiet]); (constructor; [|constructor]); cbn.
      + auto.
      + split; [exact Hs|]. exists n, nfev. rewrite <- Hin. auto.
  Qed.

  Lemma newton_loop_mute {S : Type} fn dfn ftol xtol k : forall n x prev (s : S),
    (0 <= n)%Z -> tells (fun r => 0 <= no_n (snd r))%Z (newton_loop_t solve 0 fn dfn ftol xtol k n x prev s).
  Proof.
    induction k as [|k IH]; intros n x prev s H0; cbn [newton_loop_t].
    - destruct prev as [[a b]|]; apply tells_quiet; [|discriminate]. intros r E. injection E as <-. exact H0.
    - do 2 (apply tells_quiet_bind; intros [? ?] _). apply tells_quiet_bind. intros x' _.
      apply tells_quiet_bind. intros [s3 fv'] _. apply tells_say_bind; [constructor|].
      destruct (_ && _); [|apply IH; lia]. apply tells_quiet. intros r E. injection E as <-. cbn. lia.
  Qed.

  Lemma predict_tells v g dg x dxmax j an :
    tells (fun p => 0 <= pr_n p)%Z (predict_t argsortF solve v g dg cfg x dxmax j an).
  Proof.
    unfold predict_t. do 2 (apply tells_quiet_bind; intros ? _). cbv zeta.
    eapply tells_bind; [apply newton_loop_mute; lia|]. intros [an1 o] Hn. cbn in Hn.
    apply tells_quiet_bind. intros Dx _. apply tells_quiet_bind. intros [i1 v1] _. apply tells_quiet_bind. intros j' _.
    apply tells_say_bind; [apply above_Q; repeat constructor|]. apply tells_quiet. intros p E. injection E as <-. exact Hn.
  Qed.

  Lemma recycle_tells v g dg x0 dxmax0 pre fuel : forall s, (0 <= rc_npre s)%Z ->
    honest (recycle_t argsortF solve v g dg cfg x0 dxmax0 pre fuel s).
  Proof.
    induction fuel as [|fuel IH]; intros s Hs; cbn [recycle_t]; [apply honest_quiet|].
    apply tells_say_bind; [apply above_Q; repeat constructor|]. cbv zeta.
    do 3 (apply tells_quiet_bind; intros ? _).
    eapply tells_bind; [apply newton_tells; lia|]. intros [an1 o] Hn. cbn in Hn.
    apply tells_quiet_bind. intros Dx _. apply tells_quiet_bind. intros [i1 v1] _.
    destruct (_ <? 2)%nat; [apply honest_quiet|].
    destruct (ranked _ _ _ 1) as [i2 v2]. destruct (if (2 <? _)%nat then _ else _) as [i3 v3].
    apply tells_say_bind; [apply above_Q; repeat constructor|].
    do 3 (apply tells_quiet_bind; intros ? _).
    eapply tells_bind.
    - instantiate (1 := fun _ => True). destruct (cf_stepcontrol cfg) eqn:E; [|apply honest_quiet].
      apply dxmax_tells; [congruence|exact Hn|lia].
    - intros [[[dxmax' z'] b'] changed] _. destruct (_ && _).
      { apply tells_quiet_bind. intros [an3 ?] _. apply honest_quiet. }
      destruct (_ =? _)%Z; [apply tells_say_bind; [repeat constructor|apply honest_quiet]|].
      destruct (_ && _); [apply tells_say_bind; [repeat constructor|apply honest_quiet]|].
      apply tells_say_bind; [repeat constructor|]. apply IH. cbn. lia.
  Qed.

  Lemma increment_tells v g dg dxmax0 fuel i s : (1 <= i)%Z ->
    honest (increment_t argsortF solve v g dg cfg dxmax0 fuel i s).
  Proof.
    intros Hi. unfold increment_t. cbv zeta. apply tells_say_bind.
    { apply Forall_app. split; apply above_Q; repeat constructor. exact Hi. }
    apply tells_bind with (R := fun _ => True).
    - destruct (_ && _).
      + eapply tells_bind; [apply predict_tells|]. intros p Hp. destruct (pr_success p); [apply honest_quiet|].
        eapply tells_bind; [apply recycle_tells; exact Hp|]. intros [[r x] stop] _. apply honest_quiet.
      + eapply tells_bind; [apply recycle_tells; cbn; lia|]. intros [[r x] stop] _. apply honest_quiet.
    - intros [s' stop] _. apply tells_say_bind; [apply above_Q; repeat constructor|apply honest_quiet].
  Qed.

  Lemma increments_tells v g dg dxmax0 fuel k : forall i s, (1 <= i)%Z ->
    honest (increments_t argsortF solve v g dg cfg dxmax0 fuel k i s).
  Proof.
    induction k as [|k IH]; intros i s Hi; cbn [increments_t]; [apply honest_quiet|].
    eapply tells_bind; [apply increment_tells; exact Hi|]. intros [s1 stop] _. destruct stop; [apply honest_quiet|].
    apply tells_quiet_bind. intros lim _. destruct lim; [|apply IH; lia].
    apply tells_say_bind; [repeat constructor|apply honest_quiet].
  Qed.

  Lemma pathfollow_tells v g dg U an d j jpre fuel :
    honest (pathfollow_t argsortF solve v g dg U an d j jpre cfg fuel).
  Proof.
    unfold pathfollow_t. cbv zeta. destruct (negb _); [apply increments_tells; lia|].
    destruct j; [apply increments_tells; lia|]. destruct (_ <=? _)%Z; [apply honest_quiet|].
    split; [|discriminate]. cbn [fst]. repeat (apply Forall_app; split); apply above_Q; repeat constructor; cbn; lia.
  Qed.
End Lines.

Local Ltac lines := repeat match goal with
  | |- Forall _ (_ :: _) => constructor; [first [exact Logic.I | cbv [line_true]; lia]|]
  | |- Forall _ [] => constructor end.

Section Run.
  Context {F : Type} `{NF : Num F}.
  Variable argsortF : list F -> list nat.
  Variable solve : list (list F) -> list F -> list F.

  Lemma writes_Q (st : settings F) n ls : forall i, Forall (line_true st) (writes i n ls).
  Proof. induction ls as [|l ls IH]; intros i; cbn; repeat constructor; auto. Qed.

  Lemma run_step_tells c st rows nsteps fuel s step : (Z.of_nat step < s_nsteps st)%Z ->
    tells st (fun _ => True) (run_step_t argsortF solve c st rows nsteps fuel s step).
  Proof.
    intros Hs. unfold run_step_t. cbv zeta.
    apply tells_quiet_bind. intros incs _. apply tells_quiet_bind. intros xl _.
    apply tells_say_bind.
    { apply Forall_app. split; apply above_Q; lines. }
    apply tells_quiet_bind. intros fc _. apply tells_say_bind; [destruct (Nat.eqb step 0); repeat constructor|].
    apply tells_quiet_bind. intros f0r _.
    eapply tells_bind; [apply pathfollow_tells; reflexivity|]. intros pf _.
    apply tells_say_bind.
    { apply above_Q. apply Forall_app. split; [lines|apply writes_Q]. }
    apply tells_quiet_bind. intros lpf _. apply tells_say_bind; [|apply honest_quiet].
    apply above_Q. lines.
  Qed.

  Lemma foldT_tells {A B} st (f : A -> B -> told (line F) A) (l : list B) :
    (forall a b, In b l -> tells st (fun _ => True) (f a b)) -> forall a, tells st (fun _ => True) (foldT f l a).
  Proof.
    induction l as [|b l IH]; intros H a; cbn [foldT]; [apply honest_quiet|].
    eapply tells_bind; [apply H; now left|]. intros a' _. apply IH. intros. apply H. now right.
  Qed.

  Lemma parameters_tells (st : settings F) : tells st (fun _ => True) (parameters st).
  Proof.
    unfold parameters. destruct (_ <? _)%Z; [|apply tells_say; constructor].
    apply tells_say_bind; [repeat constructor|]. destruct (s_j0 st) eqn:E; [apply honest_quiet|].
    apply tells_say_bind; [repeat constructor; exact E|]. eapply tells_bind with (R := fun _ => True).
    - destruct (s_stepcontrol st) eqn:Es; [|apply tells_say; constructor].
      apply tells_say_bind; [repeat constructor; congruence|]. destruct (feqb _ _); [apply honest_quiet|].
      apply tells_say. repeat constructor.
    - intros _ _. apply tells_say. repeat constructor.
  Qed.

  Lemma run_tells m fuel : Forall (line_true (m_set m)) (fst (run_t argsortF solve m fuel)).
  Proof.
    assert (G : tells (m_set m) (fun _ => True) (run_t argsortF solve m fuel)); [|apply G].
    unfold run_t. cbv zeta. eapply tells_bind; [apply parameters_tells|]. intros _ _.
    destruct (m_built m) as [u|], (m_nodes m), (m_elems m), (m_forces m); try apply honest_quiet.
    destruct (u_R u); [apply honest_quiet|].
    eapply tells_bind.
    - apply foldT_tells. intros rs b Hb. apply in_seq in Hb. apply run_step_tells. lia.
    - intros s _. apply tells_say_bind; [apply above_Q; repeat constructor|apply honest_quiet].
  Qed.
End Run.

Lemma step_width {F} `{NF : Num F} cfg dxmax dxmax0 j j0 z ok b n nfev T (d' : list F) z' b' changed :
  dxmax_control_t cfg dxmax dxmax0 j j0 z ok b n nfev = (T, Ok (d', z', b', changed)) ->
  (forall v, In (LReduce v) T -> ok = false /\ v = fdiv f1 (cf_reduce cfg) /\
     d' = map (fun x => fdiv x (cf_reduce cfg)) dxmax /\ changed = true) /\
  (forall v, In (LIncrease v) T -> ok = true /\ d' = map (fun x => fmul x v) dxmax /\ changed = true) /\
  ((forall v, ~ In (LReduce v) T) -> (forall v, ~ In (LIncrease v) T) ->
     d' = dxmax /\ changed = false \/
     ok = true /\ j = j0 /\ changed = true /\ d' = map (fun x => fmul x (cf_maxfac cfg)) dxmax0).
Proof.
  unfold dxmax_control_t, tbind, quiet, say. cbn [fst snd].
  destruct (py_get dxmax 0) as [d| |]; cbn [fst snd]; try discriminate.
  destruct (py_get dxmax0 0) as [d0| |]; cbn [fst snd]; try discriminate.
  destruct ok; cbn [negb fst snd].
  - destruct (fltb _ _).
    + destruct (j0 =? j)%Z; [|intros H; injection H as <- <- _ _ <-; cbn; intuition].
      destruct (0 <? z)%Z; [intros H; injection H as <- <- _ _ <-; cbn; intuition|].
      destruct (b <=? 3)%Z; intros H; injection H as <- <- _ _ <-; cbn.
      * split; [intros v [H|[]]; discriminate|]. split; [intros v [H|[]]; discriminate|]. auto.
      * split; [intros v [H|[]]; discriminate|]. split; [intros v [H|[]]; injection H as <-; auto|].
        intros _ H. exfalso. eapply H. now left.
    + destruct (Z.eqb_spec j j0); intros H; injection H as <- <- _ _ <-; cbn; intuition.
  - destruct (fltb _ _); cbn [fst snd].
    + destruct (_ || _); cbn [fst snd].
      * destruct (feqb _ _); cbn [fst snd]; [discriminate|]. intros H; injection H as <- <- _ _ <-. cbn.
        split; [intros v [H|[H|[]]]; [destruct (_ =? _)%Z; discriminate|injection H as <-; auto]|].
        split; [intros v [H|[H|[]]]; [destruct (_ =? _)%Z; discriminate|discriminate]|].
        intros H. exfalso. eapply H. right. now left.
      * intros H; injection H as <- <- _ _ <-. cbn.
        split; [intros v [H|[]]; destruct (_ =? _)%Z; discriminate|].
        split; [intros v [H|[]]; destruct (_ =? _)%Z; discriminate|]. auto.
    + intros H; injection H as <- <- _ _ <-; cbn; intuition.
Qed.
