(** * A run that asks for less does the first part of a run that asks for more *)
From Coq Require Import List ZArith Bool Arith Lia.
Import ListNotations.
From Verif Require Import Num Vec Handlers Material Analysis Truss Equil Solver Run ListFacts SpecRun RunFacts SpecLong.

Section Long.
  Context {F : Type} `{NF : Num F}.
  Variable argsortF : list F -> list nat.
  Variable solve : list (list F) -> list F -> list F.
  Notation AN := (analysis F).

  Lemma prefix_refl {A} (l : list A) : prefix l l.
  Proof. exists []. symmetry. apply app_nil_r. Qed.
  Lemma prefix_app {A} (l r : list A) : prefix l (l ++ r).
  Proof. exists r. reflexivity. Qed.
  Lemma prefix_trans {A} (a b c : list A) : prefix a b -> prefix b c -> prefix a c.
  Proof. intros [r ->] [s ->]. exists (r ++ s). symmetry. apply app_assoc. Qed.
  Lemma prefix_pre {A} (p a b : list A) : prefix a b -> prefix (p ++ a) (p ++ b).
  Proof. intros [r ->]. exists r. apply app_assoc. Qed.

  (** ** The increments of a step *)
  Definition with_horizon (l : option (Z * option F)) (n : Z) (cfg : pfcfg F) : pfcfg F :=
    PfCfg (cf_jfixed cfg) l n (cf_nfev cfg) (cf_cycl cfg) (cf_ftol cfg) (cf_xtol cfg) (cf_stepcontrol cfg)
          (cf_maxfac cfg) (cf_minfac cfg) (cf_reduce cfg) (cf_increase cfg) (cf_dxtol cfg).

  Lemma bind_ext {A B} (m : res A) (k k' : A -> res B) : (forall a, k a = k' a) -> bind m k = bind m k'.
  Proof. intros H. destruct m; cbn [bind]; auto. Qed.

  Lemma recycle_horizon l n g dg cfg x0 dxmax0 pre fuel : forall s,
    recycle solve argsortF g dg (with_horizon l n cfg) x0 dxmax0 pre fuel s = recycle solve argsortF g dg cfg x0 dxmax0 pre fuel s.
  Proof.
    induction fuel as [|fuel IH]; intros s; [reflexivity|]. cbn [recycle].
    cbv zeta. apply bind_ext. intros xj. apply bind_ext. intros dj. apply bind_ext. intros xs.
    apply bind_ext. intros [an1 o]. apply bind_ext. intros Dx. apply bind_ext. intros [i1 v1].
    destruct (Nat.ltb _ 2); [reflexivity|].
    apply bind_ext. intros j. apply bind_ext. intros q. apply bind_ext. intros valid.
    apply bind_ext. intros [[[dx' z'] b'] ch]. cbn [with_horizon cf_cycl].
    destruct (valid && _); [reflexivity|]. destruct (z' + 1 =? _)%Z; [reflexivity|]. destruct (_ && negb (no_success o) && _); [reflexivity|].
    apply IH.
  Qed.

  Lemma increment_horizon l n g dg cfg dxmax0 fuel s :
    increment solve argsortF g dg (with_horizon l n cfg) dxmax0 fuel s = increment solve argsortF g dg cfg dxmax0 fuel s.
  Proof.
    unfold increment. cbv zeta. cbn [with_horizon cf_jfixed]. destruct (_ && _).
    - apply bind_ext. intros p. destruct (pr_success p); [reflexivity|]. now rewrite recycle_horizon.
    - now rewrite recycle_horizon.
  Qed.

  Ltac bstep H := apply bind_ok in H; let a := fresh "a" in let Ha := fresh "Ha" in destruct H as (a & Ha & H).

  Lemma recycle_out g dg cfg x0 dxmax0 pre fuel : forall s r x stop,
    recycle solve argsortF g dg cfg x0 dxmax0 pre fuel s = Ok (r, x, stop) -> prefix (rc_out s) (rc_out r).
  Proof.
    induction fuel as [|fuel IH]; intros s r x stop H; [discriminate H|]. cbn [recycle] in H. cbv zeta in H.
    bstep H. bstep H. bstep H. bstep H. destruct a2 as [an1 o]. bstep H. bstep H. destruct a3 as [i1 v1].
    destruct (Nat.ltb _ 2); [discriminate H|].
    bstep H. bstep H. bstep H. bstep H. destruct a6 as [[[dx' z'] b'] ch].
    destruct (a5 && _).
    - bstep H. destruct a6 as [an3 ?]. injection H as <- _ _. apply prefix_refl.
    - destruct (z' + 1 =? _)%Z; [injection H as <- _ _; apply prefix_app|].
      destruct (_ && negb (no_success o) && _); [injection H as <- _ _; apply prefix_app|].
      apply IH in H. eapply prefix_trans; [|exact H]. apply prefix_app.
  Qed.

  Lemma increment_adds g dg cfg dxmax0 fuel s t b : increment solve argsortF g dg cfg dxmax0 fuel s = Ok (t, b) ->
    prefix (ps_res s) (ps_res t) /\ prefix (ps_out s) (ps_out t).
  Proof.
    intros H. unfold increment in H. cbv zeta in H. destruct (_ && _).
    - bstep H. destruct (pr_success a).
      + injection H as <- _. split; apply prefix_app.
      + bstep H. destruct a0 as [[r x] stop]. injection H as <- _. split; [apply prefix_app|].
        cbn [ps_out]. eapply prefix_trans; [|eapply recycle_out; exact Ha0]. apply prefix_app.
    - bstep H. destruct a as [[r x] stop]. injection H as <- _. split; [apply prefix_app|].
      cbn [ps_out]. eapply prefix_trans; [|eapply recycle_out; exact Ha]. apply prefix_app.
  Qed.

  Lemma increments_adds g dg cfg dxmax0 fuel k : forall s t, increments solve argsortF g dg cfg dxmax0 fuel k s = Ok t ->
    prefix (ps_res s) (ps_res t) /\ prefix (ps_out s) (ps_out t).
  Proof.
    induction k as [|k IH]; intros s t H; cbn [increments] in H.
    - injection H as <-. split; apply prefix_refl.
    - bstep H. destruct a as [s1 stop]. destruct (increment_adds _ _ _ _ _ _ _ _ Ha) as [H1 H2]. destruct stop.
      + injection H as <-. auto.
      + bstep H. destruct a.
        * injection H as <-. cbn. split; [exact H1|]. eapply prefix_trans; [exact H2|apply prefix_app].
        * destruct (IH _ _ H) as [H3 H4]. split; eapply prefix_trans; eassumption.
  Qed.

  (** Lines of the shorter run: those of the longer one, perhaps with the line saying
      that the limit is reached. *)
  Definition outs (o o' : list msg) : Prop := prefix o o' \/ exists p, o = p ++ [MExit1] /\ prefix p o'.

  Lemma limit_longer cfg cfg' l l' x : cf_xlimit cfg = Some l -> cf_xlimit cfg' = Some l' -> tighter l l' ->
    match beyond_limit cfg x with
    | Ok true => exists b, beyond_limit cfg' x = Ok b
    | r => beyond_limit cfg' x = r
    end.
  Proof.
    intros E E' [Hf Hl]. unfold beyond_limit. rewrite E, E'. destruct l as [i m], l' as [i' m']. cbn in Hf. subst i'.
    destruct (py_get x (i - 1)) as [y|e|]; cbn [bind]; try reflexivity. cbn [snd] in Hl.
    destruct m as [m|], m' as [m'|]; try contradiction.
    - destruct (m <? fabs y)%num eqn:E1; [eauto|]. f_equal. destruct (m' <? fabs y)%num eqn:E2; [|reflexivity].
      rewrite (Hl _ E2) in E1. discriminate.
    - destruct (m <? fabs y)%num; [eauto|reflexivity].
    - reflexivity.
  Qed.

  Lemma increments_longer g dg cfg l l' n n' dxmax0 fuel : tighter l l' -> forall k k' s, (k <= k')%nat ->
    match increments solve argsortF g dg (with_horizon (Some l) n cfg) dxmax0 fuel k s with
    | Ok t => forall t', increments solve argsortF g dg (with_horizon (Some l') n' cfg) dxmax0 fuel k' s = Ok t' ->
                prefix (ps_res t) (ps_res t') /\ outs (ps_out t) (ps_out t')
    | Err e => increments solve argsortF g dg (with_horizon (Some l') n' cfg) dxmax0 fuel k' s = Err e
    | Timeout => increments solve argsortF g dg (with_horizon (Some l') n' cfg) dxmax0 fuel k' s = Timeout
    end.
  Proof.
    intros Hl. induction k as [|k IH]; intros k' s Hk.
    - cbn [increments]. intros t' H. apply increments_adds in H. destruct H. split; [assumption|left; assumption].
    - destruct k' as [|k']; [lia|]. cbn [increments]. rewrite !increment_horizon.
      destruct (increment solve argsortF g dg cfg dxmax0 fuel s) as [[s1 stop]|e|] eqn:Ei; cbn [bind]; try reflexivity.
      destruct stop.
      + intros t' H. injection H as <-. split; [apply prefix_refl|left; apply prefix_refl].
      + pose proof (limit_longer (with_horizon (Some l) n cfg) (with_horizon (Some l') n' cfg) l l' (ps_x s1) eq_refl eq_refl Hl) as HL.
        destruct (beyond_limit (with_horizon (Some l) n cfg) (ps_x s1)) as [[|]|e|]; cbn [bind].
        * destruct HL as ([|] & ->); cbn [bind]; intros t' H.
          { injection H as <-. split; [apply prefix_refl|left; apply prefix_refl]. }
          apply increments_adds in H. cbn [ps_res ps_out]. destruct H as [H1 H2]. split; [exact H1|].
          right. eexists. split; [reflexivity|exact H2].
        * rewrite HL. cbn [bind]. apply IH. lia.
        * rewrite HL. reflexivity.
        * rewrite HL. reflexivity.
  Qed.

  Lemma pathfollow_longer g dg Ured an d j jpre cfg l l' n n' fuel : tighter l l' -> (n <= n')%Z ->
    match pathfollow solve argsortF g dg Ured an d j jpre (with_horizon (Some l) n cfg) fuel with
    | Ok t => forall t', pathfollow solve argsortF g dg Ured an d j jpre (with_horizon (Some l') n' cfg) fuel = Ok t' ->
                prefix (tl (ps_res t)) (tl (ps_res t')) /\ outs (ps_out t) (ps_out t')
    | Err e => pathfollow solve argsortF g dg Ured an d j jpre (with_horizon (Some l') n' cfg) fuel = Err e
    | Timeout => pathfollow solve argsortF g dg Ured an d j jpre (with_horizon (Some l') n' cfg) fuel = Timeout
    end.
  Proof.
    intros Hl Hn. unfold pathfollow. cbv zeta. cbn [with_horizon cf_jfixed cf_incs].
    assert (G : forall x dx s, ps_res s = [x] ->
      match increments solve argsortF g dg (with_horizon (Some l) n cfg) dx fuel (Z.to_nat n) s with
      | Ok t => forall t', increments solve argsortF g dg (with_horizon (Some l') n' cfg) dx fuel (Z.to_nat n') s = Ok t' ->
                prefix (tl (ps_res t)) (tl (ps_res t')) /\ outs (ps_out t) (ps_out t')
      | Err e => increments solve argsortF g dg (with_horizon (Some l') n' cfg) dx fuel (Z.to_nat n') s = Err e
      | Timeout => increments solve argsortF g dg (with_horizon (Some l') n' cfg) dx fuel (Z.to_nat n') s = Timeout
      end).
    { intros x dx s Hs. assert (Hk : (Z.to_nat n <= Z.to_nat n')%nat) by lia.
      pose proof (increments_longer g dg cfg l l' n n' dx fuel Hl _ _ s Hk) as H.
      destruct (increments solve argsortF g dg (with_horizon (Some l) n cfg) dx fuel (Z.to_nat n) s) as [t|e|] eqn:Et; auto.
      intros t' Ht'. destruct (H _ Ht') as [H1 H2]. split; [|exact H2].
      apply increments_adds in Et. destruct Et as [[r Er] _]. rewrite Hs in Er. destruct H1 as [r' H1]. rewrite H1, Er. exists r'. reflexivity. }
    destruct (negb (cf_jfixed cfg)).
    - eapply G. reflexivity.
    - destruct j as [j|].
      + eapply G. reflexivity.
      + destruct (n <=? 0)%Z eqn:E1.
        * intros t' H. destruct (n' <=? 0)%Z; [|discriminate H]. injection H as <-. split; [apply prefix_refl|left; apply prefix_refl].
        * destruct (n' <=? 0)%Z eqn:E2; [|reflexivity]. apply Z.leb_gt in E1. apply Z.leb_le in E2. lia.
  Qed.

  (** ** Result lists *)
  Lemma writes_end (l : list AN) : forall d w, exists w', fold_left write_result l (d ++ [w]) = (d ++ l) ++ [w'].
  Proof.
    induction l as [|a l IH]; intros d w; cbn [fold_left].
    - exists w. rewrite app_nil_r. reflexivity.
    - unfold write_result at 2. rewrite removelast_last. destruct (IH (d ++ [a]) a) as [w' E].
      exists w'. rewrite <- app_assoc in E. cbn [app] in E. rewrite E, <- !app_assoc. reflexivity.
  Qed.

  Lemma copy_end (d : list AN) w : copy_U_last (d ++ [w]) = d ++ [set_U0 (a_U w) w].
  Proof. unfold copy_U_last. rewrite rev_unit, removelast_last. reflexivity. Qed.

  (** What the rest of a step does with the results [l] of its increments. *)
  Lemma step_rest (st : settings F) n k s d w (pf : pfst F) : r_R s = d ++ [w] ->
    exists t, (let R1 := fold_left write_result (map snd (tl (ps_res pf))) (r_R s) in
    let R2 := copy_U_last R1 in
    bind (match rev R2 with [] => Err IndexError | a :: _ => Ok (a_lpf a) end) (fun lpf =>
    let lpf_end := r_lpf_end s ++ [lpf] in
    let an' := ps_an pf in
    if Nat.ltb (k + 1) n
    then Ok (Rs (set_lpf f0 (set_Vred (zero_last (a_Vred an')) an')) R2 lpf_end (r_out s ++ ps_out pf))
    else Ok (Rs an' (removelast R2) lpf_end (r_out s ++ ps_out pf)))) = Ok t /\
    (if Nat.ltb (k + 1) n then exists w', r_R t = (d ++ map snd (tl (ps_res pf))) ++ [w'] else r_R t = d ++ map snd (tl (ps_res pf))) /\
    r_out t = r_out s ++ ps_out pf /\ exists v, r_lpf_end t = r_lpf_end s ++ [v].
  Proof.
    intros Hs. rewrite Hs. destruct (writes_end (map snd (tl (ps_res pf))) d w) as [w' ->]. cbv zeta. rewrite copy_end, rev_unit. cbn [bind].
    destruct (Nat.ltb (k + 1) n); eexists; (split; [reflexivity|]); cbn [r_R r_out r_lpf_end]; rewrite ?removelast_last; eauto.
  Qed.

  Lemma run_step_eq c st rows nsteps fuel s step : run_step argsortF solve c st rows nsteps fuel s step =
    bind (at_step (s_incs st) step) (fun incs => bind (at_step (s_xlimit st) step) (fun xlimit => bind (step_setup rows step s) (fun an =>
    bind (pathfollow solve argsortF (fun V V0 w a => equilibrium c V V0 w a) (fun U a => stiffness c U a)
            (a_Ured an) an (DxVec [s_du st; s_dlpf st]) (s_j0 st) (s_jpre st) (pf_config st xlimit incs) fuel) (fun pf =>
    let R1 := fold_left write_result (map snd (tl (ps_res pf))) (r_R s) in
    let R2 := copy_U_last R1 in
    bind (match rev R2 with [] => Err IndexError | a :: _ => Ok (a_lpf a) end) (fun lpf =>
    let lpf_end := r_lpf_end s ++ [lpf] in
    let an' := ps_an pf in
    if Nat.ltb (step + 1) nsteps
    then Ok (Rs (set_lpf f0 (set_Vred (zero_last (a_Vred an')) an')) R2 lpf_end (r_out s ++ ps_out pf))
    else Ok (Rs an' (removelast R2) lpf_end (r_out s ++ ps_out pf))))))).
  Proof.
    unfold run_step. apply bind_ext. intros incs. destruct (s_xlimit st) as [l|[|l ls]]; try reflexivity.
    cbn [at_step]. destruct step; reflexivity.
  Qed.

  Lemma step_shape c st rows n fuel s k d w t : r_R s = d ++ [w] -> run_step argsortF solve c st rows n fuel s k = Ok t ->
    exists l o v, (if Nat.ltb (k + 1) n then exists w', r_R t = (d ++ l) ++ [w'] else r_R t = d ++ l) /\
      r_out t = r_out s ++ o /\ r_lpf_end t = r_lpf_end s ++ [v].
  Proof.
    intros Hs H. rewrite run_step_eq in H. bstep H. bstep H. bstep H. bstep H. 
    destruct (step_rest st n k s d w a2 Hs) as (t2 & E & H1 & H2 & v & H3).
    cbv zeta in E, H. rewrite E in H. injection H as <-. eauto 10.
  Qed.

  (** Later steps keep what is there. *)
  Lemma steps_keep c st rows n fuel : forall m k s d w t, r_R s = d ++ [w] -> (k + m = n)%nat -> (0 < m)%nat ->
    foldM (run_step argsortF solve c st rows n fuel) (seq k m) s = Ok t ->
    prefix d (r_R t) /\ prefix (r_out s) (r_out t) /\ prefix (r_lpf_end s) (r_lpf_end t).
  Proof.
    induction m as [|m IH]; intros k s d w t Hs Hk Hm H; [lia|]. cbn [seq foldM] in H. bstep H.
    destruct (step_shape _ _ _ _ _ _ _ _ _ _ Hs Ha) as (l & o & v & H1 & H2 & H3).
    destruct (Nat.ltb_spec (k + 1) n).
    - destruct H1 as (w' & H1). destruct (IH (S k) a (d ++ l) w' t H1 ltac:(lia) ltac:(lia) H) as (G1 & G2 & G3).
      rewrite H2 in G2. rewrite H3 in G3.
      split; [|split]; (eapply prefix_trans; [|eassumption]); apply prefix_app.
    - assert (m = 0%nat) by lia. subst m. cbn in H. injection H as <-. rewrite H1, H2, H3.
      split; [|split]; apply prefix_app.
  Qed.

  (** The settings other than increments, limits and number of steps. *)
  Definition alike (st st' : settings F) : Prop := st = horizon (s_incs st) (s_xlimit st) (s_nsteps st) st'.

  Lemma config_alike st st' l i l' i' : alike st st' ->
    pf_config st l i = with_horizon (Some l) i (pf_config st' l' i').
  Proof. intros ->. reflexivity. Qed.

  Lemma step_early c st st' rows n n' fuel s k : alike st st' -> (k + 1 < n)%nat -> (k + 1 < n')%nat ->
    at_step (s_incs st) k = at_step (s_incs st') k -> at_step (s_xlimit st) k = at_step (s_xlimit st') k ->
    run_step argsortF solve c st rows n fuel s k = run_step argsortF solve c st' rows n' fuel s k.
  Proof.
    intros Ha Hn Hn' E1 E2. rewrite !run_step_eq, E1, E2.
    apply bind_ext. intros i. apply bind_ext. intros l. apply bind_ext. intros an.
    assert (E : pf_config st l i = pf_config st' l i) by (rewrite Ha; reflexivity). rewrite E.
    assert (G : s_du st = s_du st' /\ s_dlpf st = s_dlpf st' /\ s_j0 st = s_j0 st' /\ s_jpre st = s_jpre st') by (rewrite Ha; auto).
    destruct G as (-> & -> & -> & ->). apply bind_ext. intros pf. apply Nat.ltb_lt in Hn, Hn'. rewrite Hn, Hn'. reflexivity.
  Qed.

  Lemma steps_early c st st' rows n n' fuel : alike st st' -> forall m k s, (k + m < n)%nat -> (k + m < n')%nat ->
    (forall i, (k <= i < k + m)%nat -> at_step (s_incs st) i = at_step (s_incs st') i /\ at_step (s_xlimit st) i = at_step (s_xlimit st') i) ->
    foldM (run_step argsortF solve c st rows n fuel) (seq k m) s = foldM (run_step argsortF solve c st' rows n' fuel) (seq k m) s.
  Proof.
    intros Ha. induction m as [|m IH]; intros k s Hn Hn' H; [reflexivity|]. cbn [seq foldM].
    destruct (H k ltac:(lia)) as [E1 E2]. rewrite (step_early c st st' rows n n' fuel s k Ha ltac:(lia) ltac:(lia) E1 E2).
    apply bind_ext. intros a. apply IH; try lia. intros i Hi. apply H. lia.
  Qed.

  (** The last step of the shorter run. *)
  Lemma step_last c st st' rows n n' fuel s k d w i i' l l' : alike st st' -> r_R s = d ++ [w] -> (k + 1 = n)%nat ->
    at_step (s_incs st) k = Ok i -> at_step (s_incs st') k = Ok i' -> at_step (s_xlimit st) k = Ok l -> at_step (s_xlimit st') k = Ok l' ->
    (i <= i')%Z -> tighter l l' ->
    match run_step argsortF solve c st rows n fuel s k with
    | Ok t => forall t', run_step argsortF solve c st' rows n' fuel s k = Ok t' ->
        (if Nat.ltb (k + 1) n' then exists d' w', r_R t' = d' ++ [w'] /\ prefix (r_R t) d' else prefix (r_R t) (r_R t')) /\
        outs (r_out t) (r_out t') /\ exists v v', r_lpf_end t = r_lpf_end s ++ [v] /\ r_lpf_end t' = r_lpf_end s ++ [v']
    | Err e => run_step argsortF solve c st' rows n' fuel s k = Err e
    | Timeout => run_step argsortF solve c st' rows n' fuel s k = Timeout
    end.
  Proof.
    intros Ha Hs Hn E1 E2 E3 E4 Hi Hl. rewrite !run_step_eq, E1, E2, E3, E4. cbn [bind].
    destruct (step_setup rows k s) as [an|e|]; cbn [bind]; try reflexivity.
    assert (G : s_du st = s_du st' /\ s_dlpf st = s_dlpf st' /\ s_j0 st = s_j0 st' /\ s_jpre st = s_jpre st') by (rewrite Ha; auto).
    destruct G as (-> & -> & -> & ->). rewrite (config_alike st st' l i l' i' Ha).
    set (cfg := pf_config st' l' i') in *.
    pose proof (pathfollow_longer (fun V V0 w a => equilibrium c V V0 w a) (fun U a => stiffness c U a) (a_Ured an) an
      (DxVec [s_du st'; s_dlpf st']) (s_j0 st') (s_jpre st') cfg l l' i i' fuel Hl Hi) as HP.
    change (with_horizon (Some l') i' cfg) with cfg in HP.
    destruct (pathfollow solve argsortF _ _ _ _ _ _ _ (with_horizon (Some l) i cfg) fuel) as [pf|e|]; cbn [bind].
    - destruct (step_rest st n k s d w pf Hs) as (t & Et & T1 & T2 & v & T3). cbv zeta in *. rewrite Et.
      intros t' Ht'. apply bind_ok in Ht'. destruct Ht' as (pf' & Hpf' & Ht').
      destruct (step_rest st' n' k s d w pf' Hs) as (t2 & Et' & T1' & T2' & v' & T3'). cbv zeta in *.
      rewrite Et' in Ht'. injection Ht' as <-.
      destruct (HP _ Hpf') as [[r Hr] Ho].
      assert (Hn2 : Nat.ltb (k + 1) n = false) by (apply Nat.ltb_ge; lia). rewrite Hn2 in T1.
      rewrite T1, T2, T2', T3, T3'. split; [|split; [|eauto]].
      + rewrite Hr, map_app in T1'. destruct (Nat.ltb (k + 1) n').
        * destruct T1' as [w' T1']. exists (d ++ map snd (tl (ps_res pf)) ++ map snd r), w'. split; [exact T1'|].
          rewrite app_assoc. apply prefix_app.
        * rewrite T1', app_assoc. apply prefix_app.
      + destruct Ho as [Ho|(p & Ho & Hp)]; [left; apply prefix_pre, Ho|]. right. exists (r_out s ++ p).
        rewrite Ho, app_assoc. split; [reflexivity|apply prefix_pre, Hp].
    - rewrite HP. reflexivity.
    - rewrite HP. reflexivity.
  Qed.

  Lemma tighter_refl l : tighter l l.
  Proof. split; [reflexivity|]. destruct (snd l); auto. Qed.

  Lemma foldM_app' {A B} (f : A -> B -> res A) l1 : forall l2 s, foldM f (l1 ++ l2) s = bind (foldM f l1 s) (foldM f l2).
  Proof.
    induction l1 as [|x l1 IH]; intros l2 s; cbn [app foldM bind]; [reflexivity|].
    destruct (f s x); cbn [bind]; auto.
  Qed.

  Lemma early_shape c st rows n fuel : forall m k s d w t, r_R s = d ++ [w] -> (k + m < n)%nat ->
    foldM (run_step argsortF solve c st rows n fuel) (seq k m) s = Ok t ->
    exists d' w', r_R t = d' ++ [w'] /\ prefix (r_out s) (r_out t) /\ length (r_lpf_end t) = (length (r_lpf_end s) + m)%nat.
  Proof.
    induction m as [|m IH]; intros k s d w t Hs Hk H; cbn [seq foldM] in H.
    - injection H as <-. exists d, w. split; [exact Hs|]. split; [apply prefix_refl|lia].
    - bstep H. destruct (step_shape _ _ _ _ _ _ _ _ _ _ Hs Ha) as (l & o & v & H1 & H2 & H3).
      assert (E : Nat.ltb (k + 1) n = true) by (apply Nat.ltb_lt; lia). rewrite E in H1. destruct H1 as [w' H1].
      destruct (IH (S k) _ _ _ _ H1 ltac:(lia) H) as (d' & w2 & G1 & G2 & G3). exists d', w2. split; [exact G1|].
      rewrite H2 in G2. rewrite H3, app_length in G3. cbn in G3. split; [|lia]. eapply prefix_trans; [apply prefix_app|exact G2].
  Qed.

  Lemma steps_longer c st st' rows fuel s d w : asks_less st st' -> r_R s = d ++ [w] ->
    let n := Z.to_nat (s_nsteps st) in let n' := Z.to_nat (s_nsteps st') in
    match foldM (run_step argsortF solve c st rows n fuel) (seq 0 n) s with
    | Ok t => forall t', foldM (run_step argsortF solve c st' rows n' fuel) (seq 0 n') s = Ok t' ->
        prefix (r_R t) (r_R t') /\ outs (r_out t) (r_out t') /\ prefix (removelast (r_lpf_end t)) (r_lpf_end t')
    | Err e => foldM (run_step argsortF solve c st' rows n' fuel) (seq 0 n') s = Err e
    | Timeout => foldM (run_step argsortF solve c st' rows n' fuel) (seq 0 n') s = Timeout
    end.
  Proof.
    intros (Ha & Hn & Hall) Hs n n'. fold n in Hn, Hall. fold n' in Hn. clearbody n n'.
    assert (E : seq 0 n = seq 0 (n - 1) ++ [(n - 1)%nat]).
    { replace n with ((n - 1) + 1)%nat at 1 by lia. rewrite seq_app. reflexivity. }
    assert (E' : seq 0 n' = seq 0 (n - 1) ++ (n - 1)%nat :: seq n (n' - n)).
    { replace n' with ((n - 1) + (1 + (n' - n)))%nat at 1 by lia. rewrite seq_app. cbn [seq Nat.add]. repeat f_equal. lia. }
    rewrite E, E', !foldM_app'.
    destruct (Nat.eq_dec n 1) as [N1|N1].
    - (* one step *)
      rewrite N1 in *. cbn [Nat.sub seq foldM bind].
      destruct (Hall 0%nat ltac:(lia)) as (i & i' & l & l' & A1 & A2 & A3 & A4 & A5). apply at_step_in in A1, A2, A3, A4.
      assert (Hi : (i <= i')%Z /\ tighter l l') by (destruct A5 as [[-> ->]|(_ & ? & ?)]; [split; [lia|apply tighter_refl]|auto]).
      destruct Hi as [Hi Hl].
      pose proof (step_last c st st' rows 1 n' fuel s 0 d w i i' l l' Ha Hs eq_refl A1 A2 A3 A4 Hi Hl) as HS.
      destruct (run_step argsortF solve c st rows 1 fuel s 0) as [t|e|]; cbn [bind foldM]; [|rewrite HS; reflexivity|rewrite HS; reflexivity].
      intros t' Ht'. bstep Ht'. destruct (HS _ Ha0) as (G1 & G2 & v & v' & G3 & G4).
      destruct (Nat.ltb_spec (0 + 1) n').
      + destruct G1 as (d' & w' & G1 & G5).
        destruct (steps_keep c st' rows n' fuel (n' - 1) 1 a d' w' t' G1 ltac:(lia) ltac:(lia) Ht') as (K1 & K2 & K3).
        split; [eapply prefix_trans; eassumption|]. split.
        * destruct G2 as [G2|(p & G2 & G6)]; [left; eapply prefix_trans; eassumption|]. right. exists p. split; [exact G2|]. eapply prefix_trans; eassumption.
        * rewrite G3, removelast_last. eapply prefix_trans; [|exact K3]. rewrite G4. apply prefix_app.
      + replace (n' - 1)%nat with 0%nat in Ht' by lia. cbn in Ht'. injection Ht' as <-.
        split; [exact G1|]. split; [exact G2|]. rewrite G3, G4, removelast_last. apply prefix_app.
    - assert (Hall2 : forall i, (0 <= i < 0 + (n - 1))%nat -> at_step (s_incs st) i = at_step (s_incs st') i /\ at_step (s_xlimit st) i = at_step (s_xlimit st') i).
      { intros j Hj. destruct (Hall j ltac:(lia)) as (i & i' & l & l' & A1 & A2 & A3 & A4 & A5). apply at_step_in in A1, A2, A3, A4.
        destruct A5 as [[-> ->]|(H & _)]; [split; congruence|lia]. }
      rewrite (steps_early c st st' rows n n' fuel Ha (n - 1) 0 s ltac:(lia) ltac:(lia) Hall2).
      destruct (foldM (run_step argsortF solve c st' rows n' fuel) (seq 0 (n - 1)) s) as [s1|e|] eqn:E1; cbn [bind]; try reflexivity.
      destruct (early_shape c st' rows n' fuel (n - 1) 0 s d w s1 Hs ltac:(lia) E1) as (d1 & w1 & Hs1 & Ho1 & _).
      cbn [foldM].
      destruct (Hall (n - 1)%nat ltac:(lia)) as (i & i' & l & l' & A1 & A2 & A3 & A4 & A5). apply at_step_in in A1, A2, A3, A4.
      assert (Hi : (i <= i')%Z /\ tighter l l') by (destruct A5 as [[-> ->]|(_ & ? & ?)]; [split; [lia|apply tighter_refl]|auto]).
      destruct Hi as [Hi Hl].
      pose proof (step_last c st st' rows n n' fuel s1 (n - 1) d1 w1 i i' l l' Ha Hs1 ltac:(lia) A1 A2 A3 A4 Hi Hl) as HS.
      destruct (run_step argsortF solve c st rows n fuel s1 (n - 1)) as [t|e|]; cbn [bind foldM]; [|rewrite HS; reflexivity|rewrite HS; reflexivity].
      intros t' Ht'. bstep Ht'. destruct (HS _ Ha0) as (G1 & G2 & v & v' & G3 & G4).
      destruct (Nat.ltb_spec (n - 1 + 1) n').
      + destruct G1 as (d' & w' & G1 & G5).
        destruct (steps_keep c st' rows n' fuel (n' - n) n a d' w' t' G1 ltac:(lia) ltac:(lia) Ht') as (K1 & K2 & K3).
        split; [eapply prefix_trans; eassumption|]. split.
        * destruct G2 as [G2|(p & G2 & G6)]; [left; eapply prefix_trans; eassumption|]. right. exists p. split; [exact G2|]. eapply prefix_trans; eassumption.
        * rewrite G3, removelast_last. eapply prefix_trans; [|exact K3]. rewrite G4. apply prefix_app.
      + replace (n' - n)%nat with 0%nat in Ht' by lia. cbn in Ht'. injection Ht' as <-.
        split; [exact G1|]. split; [exact G2|]. rewrite G3, G4, removelast_last. apply prefix_app.
  Qed.

  Lemma run_longer (m : model F) st st' fuel : asks_less st st' ->
    match run argsortF solve (with_settings st m) fuel with
    | Ok (m2, out) => forall m2' out', run argsortF solve (with_settings st' m) fuel = Ok (m2', out') ->
        exists u u', m_built m2 = Some u /\ m_built m2' = Some u' /\
          prefix (u_R u) (u_R u') /\ prefix (removelast (u_lpf_end u)) (u_lpf_end u') /\ outs out out'
    | Err e => run argsortF solve (with_settings st' m) fuel = Err e
    | Timeout => run argsortF solve (with_settings st' m) fuel = Timeout
    end.
  Proof.
    intros Hl. pose proof Hl as (Ha & _). unfold run. cbn [with_settings m_set m_built m_nodes m_elems m_forces]. cbv zeta.
    assert (G : s_log st = s_log st' /\ s_j0 st = s_j0 st' /\ s_stepcontrol st = s_stepcontrol st' /\ s_reduce st = s_reduce st' /\ s_nstatev st = s_nstatev st').
    { rewrite Ha. cbn. auto. }
    destruct G as (E1 & E2 & E3 & E4 & E5). rewrite E1, E2, E3, E4, E5.
    destruct (_ && _); [reflexivity|]. destruct (_ && _ && _); [reflexivity|].
    destruct (m_built m) as [u|]; [|reflexivity]. destruct (m_nodes m) as [nh|]; [|reflexivity].
    destruct (m_elems m) as [eh|]; [|reflexivity]. destruct (m_forces m) as [fh|]; [|reflexivity].
    destruct (u_R u) as [|r0 rest] eqn:ER; [reflexivity|].
    destruct (exists_last (l := r0 :: r0 :: rest)) as (d & w & Ed); [discriminate|].
    pose proof (steps_longer (Ctx (n_labels nh) (n_coords nh) eh (u_nnodes u) (u_ndof1 u) (s_nstatev st')) st st' (e_rows fh) fuel
      (Rs (set_lpf f0 (set_Vred (a_Ured (u_an u) ++ [f0]) (u_an u))) (r0 :: r0 :: rest) (u_lpf_end u) []) d w Hl Ed) as HS.
    cbv zeta in HS.
    destruct (foldM (run_step argsortF solve _ st _ _ fuel) _ _) as [t|e|]; cbn [bind]; [|rewrite HS; reflexivity|rewrite HS; reflexivity].
    intros m2' out' H. bstep H. injection H as <- <-. destruct (HS _ Ha0) as (G1 & G2 & G3).
    eexists _, _. split; [reflexivity|]. split; [reflexivity|]. cbn [u_R u_lpf_end]. auto.
  Qed.
End Long.
