(** * Lemmas about the printed text *)
From Coq Require Import List ZArith Bool Arith Lia.
Import ListNotations.
From Verif Require Import Num Vec Handlers Material Analysis Truss Equil Solver Run Text SpecSolver SpecRun SpecText ListFacts.

(** ** Subsequences *)
Lemma sub_refl {A} (l : list A) : sub l l.
Proof. induction l; constructor; auto. Qed.
Lemma sub_none {A} (l : list A) : sub [] l.
Proof. induction l; constructor; auto. Qed.
Lemma sub_app {A} (a a' b b' : list A) : sub a a' -> sub b b' -> sub (a ++ b) (a' ++ b').
Proof. intros H Hb. induction H; cbn; auto; constructor; auto. Qed.

(** ** The text-carrying versions do the same *)
Lemma told_bind {L A B} (m : told L A) (k : A -> told L B) : snd (tbind m k) = bind (snd m) (fun a => snd (k a)).
Proof. destruct m as [t [a| |]]; reflexivity. Qed.

Section Same.
  Context {F : Type} `{NF : Num F}.
  Variable argsortZ : list Z -> list nat.
  Variable argsortF : list F -> list nat.
  Variable solve : list (list F) -> list F -> list F.

  Lemma bind_ext {A B} (r : res A) (k k' : A -> res B) : (forall a, k a = k' a) -> bind r k = bind r k'.
  Proof. destruct r; cbn; auto. Qed.

  Lemma newton_loop_same {S : Type} v fn dfn ftol xtol k : forall n x prev (s : S),
    snd (newton_loop_t solve v fn dfn ftol xtol k n x prev s) = newton_loop solve fn dfn ftol xtol k n x prev s.
  Proof.
    induction k as [|k IH]; intros n x prev s; cbn [newton_loop newton_loop_t]; [destruct prev as [[? ?]|]; reflexivity|].
    rewrite told_bind. apply bind_ext. intros [s1 Km]. rewrite told_bind. apply bind_ext. intros [s2 fv].
    rewrite told_bind. apply bind_ext. intros x'. rewrite told_bind. apply bind_ext. intros [s3 fv'].
    cbv zeta. rewrite told_bind. cbn [say snd bind]. destruct (_ && _); [reflexivity|apply IH].
  Qed.
  Lemma newton_same {S : Type} v fn dfn x nfev ftol xtol (s : S) :
    snd (newton_t solve v fn dfn x nfev ftol xtol s) = newton solve fn dfn x nfev ftol xtol s.
  Proof. apply newton_loop_same. Qed.

  Lemma dxmax_same cfg dxmax dxmax0 j j0 z ok b n nfev :
    snd (dxmax_control_t cfg dxmax dxmax0 j j0 z ok b n nfev) = dxmax_control cfg dxmax dxmax0 j j0 z ok b n nfev.
  Proof.
    unfold dxmax_control_t, dxmax_control. rewrite told_bind. apply bind_ext. intros d. rewrite told_bind. apply bind_ext. intros d0.
    destruct (negb ok).
    - destruct (fltb _ _); [|reflexivity]. cbv zeta. rewrite told_bind. cbn [say snd bind].
      destruct (_ || _); [|reflexivity]. destruct (feqb _ _); reflexivity.
    - destruct (fltb _ _); [|destruct (_ =? _)%Z; reflexivity]. destruct (j0 =? j)%Z; [|reflexivity].
      destruct (0 <? z)%Z; [reflexivity|]. destruct (b <=? 3)%Z; reflexivity.
  Qed.

  Lemma predict_same v g dg cfg x dxmax j an :
    snd (predict_t argsortF solve v g dg cfg x dxmax j an) = predict solve argsortF g dg cfg x dxmax j an.
  Proof.
    unfold predict_t, predict. rewrite told_bind. apply bind_ext. intros xj. rewrite told_bind. apply bind_ext. intros dj.
    cbv zeta. rewrite told_bind, newton_same. apply bind_ext. intros [an1 o]. rewrite told_bind. apply bind_ext. intros Dx.
    rewrite told_bind. apply bind_ext. intros [i1 v1]. rewrite told_bind. apply bind_ext. intros j'. reflexivity.
  Qed.

  Lemma recycle_same v g dg cfg x0 dxmax0 pre fuel : forall s,
    snd (recycle_t argsortF solve v g dg cfg x0 dxmax0 pre fuel s) = recycle solve argsortF g dg cfg x0 dxmax0 pre fuel s.
  Proof.
    induction fuel as [|fuel IH]; intros s; cbn [recycle recycle_t]; [reflexivity|].
    rewrite told_bind. cbn [say snd bind]. cbv zeta. rewrite told_bind. apply bind_ext. intros xj.
    rewrite told_bind. apply bind_ext. intros dj. rewrite told_bind. apply bind_ext. intros xs.
    rewrite told_bind, newton_same. apply bind_ext. intros [an1 o]. rewrite told_bind. apply bind_ext. intros Dx.
    rewrite told_bind. apply bind_ext. intros [i1 v1]. destruct (Nat.ltb _ 2); [reflexivity|].
    destruct (ranked argsortF Dx (rc_dxmax s) 1) as [i2 v2].
    destruct (if Nat.ltb 2 _ then _ else _) as [i3 v3].
    rewrite told_bind. cbn [say snd bind]. rewrite told_bind. apply bind_ext. intros j. rewrite told_bind. apply bind_ext. intros q.
    rewrite told_bind. apply bind_ext. intros valid. rewrite told_bind.
    match goal with |- bind (snd ?A) _ = bind ?B _ => assert (E : snd A = B) by (destruct (cf_stepcontrol cfg); [apply dxmax_same|reflexivity]) end.
    rewrite E. apply bind_ext. intros [[[dx' z'] b'] ch]. destruct (valid && _).
    - rewrite told_bind. apply bind_ext. intros [an3 ?]. reflexivity.
    - destruct (_ =? _)%Z; [reflexivity|]. destruct (_ && negb ch); [reflexivity|].
      rewrite told_bind. cbn [say snd bind]. apply IH.
  Qed.

  Lemma increment_same v g dg cfg dxmax0 fuel i s :
    snd (increment_t argsortF solve v g dg cfg dxmax0 fuel i s) = increment solve argsortF g dg cfg dxmax0 fuel s.
  Proof.
    unfold increment_t, increment. rewrite told_bind. cbn [say snd bind]. cbv zeta. rewrite told_bind.
    destruct (ps_jpre s && negb (cf_jfixed cfg)).
    - rewrite told_bind, predict_same. destruct (predict _ _ _ _ _ _ _ _ _) as [p| |]; cbn [bind]; try reflexivity.
      destruct (pr_success p); [reflexivity|]. rewrite told_bind, recycle_same.
      destruct (recycle _ _ _ _ _ _ _ _ _ _) as [[[r x] st]| |]; reflexivity.
    - rewrite told_bind, recycle_same. destruct (recycle _ _ _ _ _ _ _ _ _ _) as [[[r x] st]| |]; reflexivity.
  Qed.

  Lemma increments_same v g dg cfg dxmax0 fuel k : forall i s,
    snd (increments_t argsortF solve v g dg cfg dxmax0 fuel k i s) = increments solve argsortF g dg cfg dxmax0 fuel k s.
  Proof.
    induction k as [|k IH]; intros i s; cbn [increments increments_t]; [reflexivity|].
    rewrite told_bind, increment_same. apply bind_ext. intros [s1 stop]. destruct stop; [reflexivity|].
    rewrite told_bind. apply bind_ext. intros lim. destruct lim; [reflexivity|apply IH].
  Qed.

  Lemma pathfollow_same v g dg U an d j jpre cfg fuel :
    snd (pathfollow_t argsortF solve v g dg U an d j jpre cfg fuel) = pathfollow solve argsortF g dg U an d j jpre cfg fuel.
  Proof.
    unfold pathfollow_t, pathfollow. cbv zeta. destruct (negb _); [apply increments_same|].
    destruct j as [j|]; [apply increments_same|]. destruct (_ <=? 0)%Z; reflexivity.
  Qed.

  Lemma build_same m : snd (build_t argsortZ m) = build argsortZ m.
  Proof.
    unfold build_t, build. destruct (m_nodes m) as [nh0|]; [|reflexivity]. destruct (m_elems m) as [eh|]; [|reflexivity].
    cbv zeta. rewrite told_bind. apply bind_ext. intros [nh|]; [|reflexivity]. rewrite told_bind. apply bind_ext. intros ob.
    rewrite told_bind. apply bind_ext. intros oe. destruct ob as [bh|]; [|reflexivity]. destruct oe as [fh|]; [|reflexivity].
    rewrite told_bind. apply bind_ext. intros c1. rewrite told_bind. apply bind_ext. intros c2. destruct (negb c2); [reflexivity|].
    rewrite told_bind. apply bind_ext. intros D0. rewrite told_bind. apply bind_ext. intros D1.
    rewrite told_bind. cbn [say snd bind]. rewrite told_bind. apply bind_ext. reflexivity.
  Qed.

  Lemma run_step_same c st rows nsteps fuel s step :
    snd (run_step_t argsortF solve c st rows nsteps fuel s step) = run_step argsortF solve c st rows nsteps fuel s step.
  Proof.
    unfold run_step_t, run_step, step_setup. cbv zeta. rewrite told_bind. apply bind_ext. intros incs.
    rewrite told_bind. apply bind_ext. intros xl. rewrite told_bind. cbn [say snd bind].
    rewrite told_bind. cbn [quiet snd]. destruct (const_forces _ _ _) as [fc| |]; cbn [bind]; [|reflexivity..].
    rewrite told_bind. cbn [say snd bind]. rewrite told_bind. cbn [quiet snd]. destruct (gather _ _) as [f0r| |]; cbn [bind]; [|reflexivity..].
    rewrite told_bind, pathfollow_same. apply bind_ext. intros pf. rewrite told_bind. cbn [say snd bind].
    rewrite told_bind. apply bind_ext. intros l. rewrite told_bind. cbn [say snd bind quiet]. now destruct (Nat.ltb _ _).
  Qed.

  Lemma foldT_same {A B} (f : A -> B -> told (line F) A) f' (l : list B) : (forall a b, snd (f a b) = f' a b) ->
    forall a, snd (foldT f l a) = foldM f' l a.
  Proof. intros H. induction l as [|b l IH]; intros a; [reflexivity|]. cbn. rewrite told_bind, H. apply bind_ext. apply IH. Qed.

  Lemma parameters_same st : snd (parameters st) =
    if (1 <? s_log st)%Z && (match s_j0 st with Some _ => true | None => false end) then Err TypeError
    else if (1 <? s_log st)%Z && s_stepcontrol st && (feqb (s_reduce st) f0) then Err ZeroDivisionError else Ok tt.
  Proof.
    unfold parameters. destruct (1 <? s_log st)%Z; [|reflexivity]. destruct (s_j0 st); [reflexivity|].
    destruct (s_stepcontrol st); [|reflexivity]. destruct (feqb _ _); reflexivity.
  Qed.

  Lemma run_same m fuel : snd (run_t argsortF solve m fuel) = run argsortF solve m fuel.
  Proof.
    unfold run_t, run. cbv zeta. rewrite told_bind, parameters_same.
    destruct (_ && match s_j0 _ with Some _ => _ | None => _ end); [reflexivity|]. destruct (_ && _ && _); [reflexivity|]. cbn [bind].
    destruct (m_built m) as [u|]; [|reflexivity]. destruct (m_nodes m); [|reflexivity]. destruct (m_elems m); [|reflexivity].
    destruct (m_forces m); [|reflexivity]. destruct (u_R u); [reflexivity|]. rewrite told_bind.
    rewrite (foldT_same _ (run_step argsortF solve _ (m_set m) _ _ fuel)) by (intros; apply run_step_same).
    apply bind_ext. intros s. reflexivity.
  Qed.
End Same.

(** ** Raising the level only adds lines *)
Definition below {L A} (m m' : told L A) : Prop := snd m = snd m' /\ sub (fst m) (fst m').
Lemma below_refl {L A} (m : told L A) : below m m.
Proof. split; [reflexivity|apply sub_refl]. Qed.
Lemma below_say {L} (l l' : list L) : sub l l' -> below (say l) (say l').
Proof. split; [reflexivity|assumption]. Qed.
Lemma below_bind {L A B} (m m' : told L A) (k k' : A -> told L B) :
  below m m' -> (forall a, below (k a) (k' a)) -> below (tbind m k) (tbind m' k').
Proof.
  intros [E S] H. destruct m as [t r], m' as [t' r']. cbn in *. subst r'.
  destruct r as [a| |]; cbn; [|split; [reflexivity|assumption]..].
  destruct (H a) as [E' S']. split; [exact E'|apply sub_app; assumption].
Qed.

Section Level.
  Context {F : Type} `{NF : Num F}.
  Variable argsortF : list F -> list nat.
  Variable solve : list (list F) -> list F -> list F.
  Variables v v' : Z.
  Hypothesis Hv : (v <= v')%Z.
  Local Hint Resolve below_refl sub_refl : core.

  Lemma above_sub k (l : list (line F)) : sub (above v k l) (above v' k l).
  Proof.
    unfold above. destruct (Z.ltb_spec k v), (Z.ltb_spec k v'); try apply sub_refl; try apply sub_none. lia.
  Qed.
  Local Hint Resolve above_sub : core.

  Lemma newton_loop_below {S : Type} fn dfn ftol xtol k : forall n x prev (s : S),
    below (newton_loop_t solve v fn dfn ftol xtol k n x prev s) (newton_loop_t solve v' fn dfn ftol xtol k n x prev s).
  Proof.
    induction k as [|k IH]; intros n x prev s; cbn [newton_loop_t]; [auto|].
    apply below_bind; [auto|]. intros [s1 Km]. apply below_bind; [auto|]. intros [s2 fv].
    cbv zeta. apply below_bind; [auto|]. intros x'. apply below_bind; [auto|]. intros [s3 fv'].
    apply below_bind; [apply below_say; auto|]. intros _. destruct (_ && _); auto.
  Qed.

  Lemma predict_below g dg cfg x dxmax j an :
    below (predict_t argsortF solve v g dg cfg x dxmax j an) (predict_t argsortF solve v' g dg cfg x dxmax j an).
  Proof.
    unfold predict_t. apply below_bind; [auto|]. intros xj. apply below_bind; [auto|]. intros dj. cbv zeta.
    apply below_bind; [auto|]. intros [an1 o]. apply below_bind; [auto|]. intros Dx. apply below_bind; [auto|]. intros [i1 v1].
    apply below_bind; [auto|]. intros j'. apply below_bind; [apply below_say; auto|]. auto.
  Qed.

  Lemma recycle_below g dg cfg x0 dxmax0 pre fuel : forall s,
    below (recycle_t argsortF solve v g dg cfg x0 dxmax0 pre fuel s) (recycle_t argsortF solve v' g dg cfg x0 dxmax0 pre fuel s).
  Proof.
    induction fuel as [|fuel IH]; intros s; cbn [recycle_t]; [auto|].
    apply below_bind; [apply below_say; auto|]. intros _. cbv zeta. apply below_bind; [auto|]. intros xj.
    apply below_bind; [auto|]. intros dj. apply below_bind; [auto|]. intros xs.
    apply below_bind; [apply newton_loop_below|]. intros [an1 o]. apply below_bind; [auto|]. intros Dx.
    apply below_bind; [auto|]. intros [i1 v1]. destruct (Nat.ltb _ 2); [auto|].
    destruct (ranked argsortF Dx (rc_dxmax s) 1) as [i2 v2]. destruct (if Nat.ltb 2 _ then _ else _) as [i3 v3].
    apply below_bind; [apply below_say; auto|]. intros _. apply below_bind; [auto|]. intros j. apply below_bind; [auto|]. intros q.
    apply below_bind; [auto|]. intros valid. apply below_bind; [auto|]. intros [[[dx' z'] b'] ch].
    destruct (valid && _); [auto|]. destruct (_ =? _)%Z; [auto|]. destruct (_ && negb ch); [auto|].
    apply below_bind; [auto|]. intros _. apply IH.
  Qed.

  Lemma increment_below g dg cfg dxmax0 fuel i s :
    below (increment_t argsortF solve v g dg cfg dxmax0 fuel i s) (increment_t argsortF solve v' g dg cfg dxmax0 fuel i s).
  Proof.
    unfold increment_t. apply below_bind; [apply below_say; apply sub_app; auto|]. intros _. cbv zeta. apply below_bind.
    - destruct (_ && _).
      + apply below_bind; [apply predict_below|]. intros p. destruct (pr_success p); [auto|].
        apply below_bind; [apply recycle_below|]. intros [[r x] st]. auto.
      + apply below_bind; [apply recycle_below|]. intros [[r x] st]. auto.
    - intros [s' st]. apply below_bind; [apply below_say; auto|]. auto.
  Qed.

  Lemma increments_below g dg cfg dxmax0 fuel k : forall i s,
    below (increments_t argsortF solve v g dg cfg dxmax0 fuel k i s) (increments_t argsortF solve v' g dg cfg dxmax0 fuel k i s).
  Proof.
    induction k as [|k IH]; intros i s; cbn [increments_t]; [auto|].
    apply below_bind; [apply increment_below|]. intros [s1 stop]. destruct stop; [auto|].
    apply below_bind; [auto|]. intros lim. destruct lim; auto.
  Qed.

  Lemma pathfollow_below g dg U an d j jpre cfg fuel :
    below (pathfollow_t argsortF solve v g dg U an d j jpre cfg fuel) (pathfollow_t argsortF solve v' g dg U an d j jpre cfg fuel).
  Proof.
    unfold pathfollow_t. cbv zeta. destruct (negb _); [apply increments_below|].
    destruct j as [j|]; [apply increments_below|]. destruct (_ <=? 0)%Z; [auto|].
    split; [reflexivity|]. cbn [fst]. repeat apply sub_app; auto.
  Qed.

  Lemma run_step_below c st rows nsteps fuel s step :
    below (run_step_t argsortF solve c (with_log v st) rows nsteps fuel s step) (run_step_t argsortF solve c (with_log v' st) rows nsteps fuel s step).
  Proof.
    unfold run_step_t. cbv zeta. cbn [with_log s_incs s_xlimit s_log s_du s_dlpf s_j0 s_jpre].
    apply below_bind; [auto|]. intros incs. apply below_bind; [auto|]. intros xl.
    apply below_bind; [apply below_say; apply sub_app; auto|]. intros _. apply below_bind; [auto|]. intros fc.
    apply below_bind; [auto|]. intros _. apply below_bind; [auto|]. intros f0r.
    apply below_bind; [apply pathfollow_below|]. intros pf. apply below_bind; [apply below_say; auto|]. intros _.
    apply below_bind; [auto|]. intros l. apply below_bind; [apply below_say; auto|]. auto.
  Qed.

  Lemma foldT_below {A B} (f f' : A -> B -> told (line F) A) (l : list B) : (forall a b, below (f a b) (f' a b)) ->
    forall a, below (foldT f l a) (foldT f' l a).
  Proof. intros H. induction l as [|b l IH]; intros a; cbn; [auto|]. apply below_bind; auto. Qed.

  Lemma parameters_below st : printable st v' -> below (parameters (with_log v st)) (parameters (with_log v' st)).
  Proof.
    intros Hp. unfold parameters. cbn [with_log s_log s_incs s_cycl s_nfev s_du s_dlpf s_j0 s_jfixed s_dxtol s_xtol s_ftol s_stepcontrol s_minfac s_maxfac s_reduce s_increase].
    destruct (Z.ltb_spec 1 v), (Z.ltb_spec 1 v'); try lia; auto.
    destruct Hp as [Hp|[-> Hr]]; [lia|]. destruct (s_stepcontrol st); [rewrite (Hr eq_refl)|]; (split; [reflexivity|apply sub_none]).
  Qed.

  Definition at_res (r : res (model F * list msg)) : res (model F * list msg) :=
    ' (m, o) <- r ;; Ok (at_level v' m, o).
  Lemma run_below m fuel : printable (m_set m) v' ->
    snd (run_t argsortF solve (at_level v' m) fuel) = at_res (snd (run_t argsortF solve (at_level v m) fuel)) /\
    sub (fst (run_t argsortF solve (at_level v m) fuel)) (fst (run_t argsortF solve (at_level v' m) fuel)).
  Proof.
    intros Hp. unfold run_t. cbv zeta. cbn [at_level with_settings m_set m_built m_nodes m_elems m_forces m_bounds].
    pose proof (parameters_below _ Hp) as HP.
    match goal with |- snd (tbind ?p1 ?k1) = at_res (snd (tbind ?p2 ?k2)) /\ _ =>
      assert (HK : snd (k1 tt) = at_res (snd (k2 tt)) /\ sub (fst (k2 tt)) (fst (k1 tt))) end.
    2:{ destruct HP as [E S]. destruct (parameters (with_log v (m_set m))) as [t r], (parameters (with_log v' (m_set m))) as [t' r'].
        cbn [fst snd] in E, S. subst r'. destruct r as [[]| |]; cbn [tbind snd fst]; [|split; auto..].
        destruct HK as [K1 K2]. split; [exact K1|]. apply sub_app; assumption. }
    cbn beta. destruct (m_built m) as [u|]; [|split; auto]. destruct (m_nodes m); [|split; auto]. destruct (m_elems m); [|split; auto].
    destruct (m_forces m); [|split; auto]. destruct (u_R u); [split; auto|]. cbn [with_log s_nstatev s_nsteps s_log].
    match goal with |- snd (tbind (foldT ?f ?l ?a) _) = at_res (snd (tbind (foldT ?f' _ _) _)) /\ _ =>
      destruct (foldT_below f' f l (fun y z => run_step_below _ _ _ _ _ y z) a) as [E S]; destruct (foldT f l a) as [t r], (foldT f' l a) as [t' r'] end.
    cbn [fst snd] in E, S. subst r'. destruct r as [s| |]; cbn [tbind snd fst say quiet at_res bind]; [|split; auto..].
    split; [reflexivity|]. rewrite !app_nil_r. apply sub_app; auto.
  Qed.
End Level.
