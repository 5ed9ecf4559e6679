(** * The path follower in another unit of force *)
From Coq Require Import List ZArith Bool Arith Lia Reals Lra.
Import ListNotations.
From Verif Require Import Num NumR Vec Analysis Solver ListFacts SpecUnit UnitFacts.
Local Open Scope R_scope.

Definition rescaled_cfg (t : R) (c : pfcfg R) : pfcfg R :=
  PfCfg (cf_jfixed c) (cf_xlimit c) (cf_incs c) (cf_nfev c) (cf_cycl c) (t * cf_ftol c) (cf_xtol c) (cf_stepcontrol c)
        (cf_maxfac c) (cf_minfac c) (cf_reduce c) (cf_increase c) (cf_dxtol c).

Lemma map2_snoc {A B C} (f : A -> B -> C) x y a b : length x = length y -> map2 f (x ++ [a]) (y ++ [b]) = map2 f x y ++ [f a b].
Proof. revert y. induction x as [|u x IH]; intros [|v y] H; try discriminate H; [reflexivity|]. cbn. f_equal. apply IH. cbn in H. lia. Qed.
Lemma map2_repeat {A B C} (f : A -> B -> C) a k y : length y = k -> map2 f (repeat a k) y = map (f a) y.
Proof. intros <-. induction y as [|v y IH]; [reflexivity|]. cbn. f_equal. exact IH. Qed.

Lemma fdot_sq_scale t u : fdot (map (Rmult t) u) (map (Rmult t) u) = t * t * fdot u u.
Proof. induction u as [|x u IH]; cbn; numR; [ring|]. rewrite IH. ring. Qed.
Lemma fdot_snoc0 (u : list R) : fdot (u ++ [0]) (u ++ [0]) = fdot u u.
Proof. induction u as [|x u IH]; cbn; numR; [ring|]. rewrite IH. reflexivity. Qed.
Lemma fnorm_scale t u : 0 < t -> fnorm (map (Rmult t) u ++ [0]) = t * fnorm (u ++ [0]).
Proof.
  intros Ht. unfold fnorm. rewrite !fdot_snoc0, fdot_sq_scale. numR.
  assert (H0 : 0 <= fdot u u). { clear. induction u as [|x u IH]; cbn; numR; [lra|]. nra. }
  rewrite sqrt_mult by nra. rewrite sqrt_square by lra. reflexivity.
Qed.

Section Path.
  Variable t : R.
  Hypothesis Ht : 0 < t.
  Notation sc := (map (Rmult t)).
  Variable solve : list (list R) -> list R -> list R.
  Variable argsortF : list R -> list nat.
  Notation AN := (analysis R).
  Variables g g' : gfun R.
  Variables dg dg' : kfun R.
  Variable Sim : AN -> AN -> Prop.
  Variable n : nat.
  Notation N := (S n).

  Hypothesis Hfree : scale_free solve.
  Hypothesis Hctrl : keeps_control solve.
  Hypothesis Hg : forall V V0 w a a' b x, Sim a a' -> g V V0 w a = Ok (b, x) ->
    length x = n /\ exists b', g' V V0 w a' = Ok (b', sc x) /\ Sim b b'.
  Hypothesis Hk : forall V a a' b K, Sim a a' -> dg V a = Ok (b, K) ->
    length K = n /\ Forall (fun r => length r = n) K /\ exists b', dg' V a' = Ok (b', map sc K) /\ Sim b b'.
  Hypothesis Hj : forall j a a', Sim a a' -> Sim (set_j j a) (set_j j a').
  Hypothesis HKm : forall v v' a a', Sim a a' -> Sim (set_Kmod v a) (set_Kmod v' a').
  Hypothesis HdV : forall v a a', Sim a a' -> Sim (set_dVmax v a) (set_dVmax v a').
  Hypothesis Hlpf : forall v a a', Sim a a' -> Sim (set_lpf v a) (set_lpf v a').
  Hypothesis HUr : forall v a a', length v = n -> Sim a a' -> Sim (set_Ured v a) (set_Ured v a').
  Hypothesis HVr : forall v a a', Sim a a' -> Sim (set_Vred v a) (set_Vred v a').
  Hypothesis Hf0 : forall a a', Sim a a' -> a_f0red a' = sc (a_f0red a).

  Lemma f_ext_unit V0 j Vmax w V a a' b x : Sim a a' -> f_ext g V0 j Vmax w V a = Ok (b, x) ->
    exists u vj b', x = u ++ [vj - Vmax] /\ length u = n /\ py_get V (Z.abs j - 1) = Ok vj /\
      f_ext g' V0 j Vmax w V a' = Ok (b', sc u ++ [vj - Vmax]) /\ Sim b b'.
  Proof.
    intros HS H. unfold f_ext in *. apply bind_ok in H. destruct H as ([a1 gr] & H1 & H).
    destruct (Hg _ _ _ _ _ _ _ (Hj j _ _ HS) H1) as (L & b' & E & HS'). rewrite E. cbn [bind].
    apply bind_ok in H. destruct H as (vj & Hv & H). rewrite Hv. cbn [bind]. injection H as <- <-.
    exists (map Ropp gr), vj, b'. split; [reflexivity|]. split; [rewrite map_length; exact L|]. split; [reflexivity|]. split; [|exact HS'].
    numR. do 3 f_equal. rewrite !map_map. apply map_ext. intros. ring.
  Qed.

  Lemma dfdx_unit j V a a' b M : length V = N -> Sim a a' -> dfdx dg j V a = Ok (b, M) ->
    exists Kf p b', M = Kf ++ [set_nth p 1 (repeat 0 N)] /\ length Kf = n /\ Forall (fun r => length r = N) Kf /\ py_pos N (Z.abs j - 1) = Ok p /\
      dfdx dg' j V a' = Ok (b', map sc Kf ++ [set_nth p 1 (repeat 0 N)]) /\ Sim b b'.
  Proof.
    intros HV HS H. unfold dfdx in *. apply bind_ok in H. destruct H as (qc & Hq & H). rewrite Hq. cbn [bind].
    unfold ctrl_row in Hq. rewrite HV in Hq. apply bind_ok in Hq. destruct Hq as (p & Hp & Hq). injection Hq as <-.
    apply bind_ok in H. destruct H as ([a1 K] & H1 & H).
    destruct (Hk _ _ _ _ _ (Hj j _ _ HS) H1) as (LK & FK & b' & E & HS'). rewrite E. cbn [bind].
    rewrite (Hf0 _ _ HS'). apply bind_ok in H. destruct H as (Kf & HK & H). unfold hstack_col in *. rewrite !map_length in *.
    destruct (Nat.eqb_spec (length K) (length (a_f0red a1))) as [El|]; [|discriminate]. injection HK as <-. cbn [bind].
    numR. set (Kf := map2 (fun row x => row ++ [x]) K (map Ropp (a_f0red a1))) in *.
    assert (EK : map2 (fun row x => row ++ [x]) (map sc K) (map Ropp (sc (a_f0red a1))) = map sc Kf).
    { unfold Kf. clear - El. revert El. generalize (a_f0red a1). induction K as [|row K IH]; intros [|v l] H; try discriminate H; [reflexivity|]. cbn.
      rewrite IH by (cbn in H; lia). f_equal. rewrite map_app. cbn. do 2 f_equal. ring. }
    rewrite EK. assert (EF : forall L, forallb (fun row : list R => Nat.eqb (length row) L) (map sc Kf) = forallb (fun row => Nat.eqb (length row) L) Kf).
    { intros L. clear. induction Kf as [|r l IH]; [reflexivity|]. cbn. rewrite IH, map_length. reflexivity. }
    rewrite EF. destruct (forallb _ Kf) eqn:Ef; [|discriminate]. injection H as <- <-.
    exists Kf, p, (set_Kmod (map sc Kf ++ [set_nth p 1 (repeat 0 N)]) b'). split; [reflexivity|].
    split. { unfold Kf. rewrite map2_length, map_length. lia. }
    split. { clear - Ef. rewrite forallb_forall in Ef. apply Forall_forall. intros r Hr. specialize (Ef r Hr). apply Nat.eqb_eq in Ef. rewrite Ef.
      assert (G : forall (l : list R) p v, length (set_nth p v l) = length l) by (induction l as [|y l IH]; intros [|q] v; cbn; auto).
      rewrite G. apply (repeat_length 0 N). }
    split; [exact Hp|]. split; [reflexivity|]. apply HKm, HS'.
  Qed.

  (** The correction is the same, and satisfies the control equation. *)
  Lemma solve_unit Kf p u c : length Kf = n -> Forall (fun r => length r = N) Kf -> (p < N)%nat -> length u = n ->
    let dx := solve (Kf ++ [set_nth p 1 (repeat 0 N)]) (map Ropp (u ++ [c])) in
    solve (map sc Kf ++ [set_nth p 1 (repeat 0 N)]) (map Ropp (sc u ++ [c])) = dx /\ length dx = N /\ nth_error dx p = Some (- c).
  Proof.
    intros LK FK Hp Lu dx. split.
    - unfold dx. pose proof (Hfree (repeat t n ++ [1]) (Kf ++ [set_nth p 1 (repeat 0 N)]) (map Ropp (u ++ [c]))) as H.
      rewrite !map2_snoc in H by (rewrite repeat_length; lia). rewrite map2_repeat in H by exact LK.
      rewrite map_app in H. cbn [map] in H. rewrite map2_snoc in H by (rewrite repeat_length, map_length; lia). rewrite map2_repeat in H by (rewrite map_length; exact Lu).
      assert (G : forall l : list R, map (Rmult 1) l = l) by (induction l as [|y l IH]; cbn; [reflexivity|]; rewrite Rmult_1_l, IH; reflexivity).
      rewrite G, Rmult_1_l in H. rewrite !map_app in *. cbn [map] in *. rewrite <- H.
      + f_equal. f_equal. rewrite !map_map. apply map_ext. intros. ring.
      + apply Forall_app. split; [|constructor; [lra|constructor]]. apply Forall_forall. intros y Hy. apply repeat_spec in Hy. subst. exact Ht.
      + rewrite !app_length, repeat_length, map_length. cbn. lia.
      + rewrite !app_length, map_length. cbn. lia.
      + rewrite app_length, map_length. cbn [length]. apply Forall_app. split; [eapply Forall_impl; [|exact FK]; cbn beta; intros; lia|]. constructor; [|constructor].
        assert (G2 : forall (l : list R) p v, length (set_nth p v l) = length l) by (induction l as [|y l IH]; intros [|q] v; cbn; auto).
        rewrite G2, repeat_length. lia.
    - unfold dx. rewrite map_app. cbn [map]. pose proof (Hctrl Kf (map Ropp u) p (- c)) as H. rewrite map_length, Lu in H. apply H; auto.
  Qed.

  (** The two outputs of [newton] differ only in the norm of the residual. *)
  Definition out_unit (o o' : newton_out R) : Prop :=
    no_x o' = no_x o /\ no_success o' = no_success o /\ no_n o' = no_n o.

  Lemma newton_unit V0 j Vmax x nfev ftol xtol a a' b o : length x = N -> Sim a a' ->
    newton solve (f_ext g V0 j Vmax false) (dfdx dg j) x nfev ftol xtol a = Ok (b, o) ->
    length (no_x o) = N /\ exists b' o', newton solve (f_ext g' V0 j Vmax false) (dfdx dg' j) x nfev (t * ftol) xtol a' = Ok (b', o') /\ out_unit o o' /\ Sim b b'.
  Proof.
    unfold newton. generalize (Z.to_nat nfev), 0%Z. intros k m. 
    assert (G : forall prev prev', (prev = None <-> prev' = None) -> length x = N -> Sim a a' ->
      newton_loop solve (f_ext g V0 j Vmax false) (dfdx dg j) ftol xtol k m x prev a = Ok (b, o) ->
      length (no_x o) = N /\ exists b' o', newton_loop solve (f_ext g' V0 j Vmax false) (dfdx dg' j) (t * ftol) xtol k m x prev' a' = Ok (b', o') /\ out_unit o o' /\ Sim b b').
    { revert m x a a'. induction k as [|k IH]; intros m x a a' prev prev' Hp Lx HS H; cbn [newton_loop] in *.
      - destruct prev as [[p1 p2]|]; [|discriminate]. destruct prev' as [[p1' p2']|]; [|destruct Hp as [_ Hp]; discriminate (Hp eq_refl)].
        injection H as <- <-. cbn [no_x]. split; [exact Lx|]. eexists _, _. split; [reflexivity|]. split; [repeat split|exact HS].
      - apply bind_ok in H. destruct H as ([s1 Km] & H1 & H).
        destruct (dfdx_unit _ _ _ _ _ _ Lx HS H1) as (Kf & p & s1' & -> & LK & FK & Hpp & -> & S1). cbn [bind].
        apply bind_ok in H. destruct H as ([s2 fv] & H2 & H).
        destruct (f_ext_unit _ _ _ _ _ _ _ _ _ S1 H2) as (u & vj & s2' & -> & Lu & Hv & -> & S2). cbn [bind].
        apply bind_ok in H. destruct H as (x' & Hx & H).
        assert (HpN : (p < N)%nat).
        { unfold py_get in Hv. rewrite Lx, Hpp in Hv. cbn [bind] in Hv. destruct (nth_error x p) eqn:E; [|discriminate]. rewrite <- Lx. apply nth_error_Some. congruence. }
        destruct (solve_unit Kf p u (vj - Vmax) LK FK HpN Lu) as (E1 & E2 & E3). numR. rewrite E1.
        set (dx := solve (Kf ++ _) _) in *. rewrite Hx. cbn [bind].
        assert (Ex : x' = map2 Rplus x dx). { unfold bcast2 in Hx. rewrite Lx, E2, Nat.eqb_refl in Hx. injection Hx. auto. }
        assert (Lx' : length x' = N) by (rewrite Ex, map2_length; lia).
        assert (Hv' : py_get x' (Z.abs j - 1) = Ok Vmax).
        { unfold py_get in *. rewrite Lx'. rewrite Lx in Hv. rewrite Hpp in *. cbn [bind] in *. rewrite Ex, nth_error_map2.
          destruct (nth_error x p); [|discriminate]. rewrite E3. injection Hv as ->. f_equal. ring. }
        apply bind_ok in H. destruct H as ([s3 fv'] & H3 & H).
        destruct (f_ext_unit _ _ _ _ _ _ _ _ _ S2 H3) as (u' & vj' & s3' & -> & Lu' & Hv2 & -> & S3). cbn [bind]. cbv zeta in *.
        rewrite Hv' in Hv2. injection Hv2 as <-. rewrite Rminus_diag_eq in * by reflexivity. rewrite (fnorm_scale t u' Ht). numR. rewrite t_ltb by exact Ht.
        destruct (_ && _)%bool; [|eapply IH; [|exact Lx'|exact S3|exact H]; split; discriminate].
        injection H as <- <-. cbn [no_x]. split; [exact Lx'|]. eexists _, _. split; [reflexivity|]. split; [repeat split|exact S3]. }
    intros Lx HS. apply G; auto. tauto.
  Qed.

  Definition pre_unit (p p' : pre_out R) : Prop :=
    Sim (pr_an p) (pr_an p') /\ pr_j p' = pr_j p /\ pr_success p' = pr_success p /\ pr_n p' = pr_n p /\
    pr_Dx p' = pr_Dx p /\ pr_v p' = pr_v p.

  Lemma bcast_N f (x y z : list R) : length x = N -> length y = N -> bcast2 f x y = Ok z -> length z = N.
  Proof. intros Hx Hy H. unfold bcast2 in H. rewrite Hx, Hy, Nat.eqb_refl in H. injection H as <-. rewrite map2_length. lia. Qed.

  Lemma predict_unit cfg x dxmax j a a' p : length x = N -> Sim a a' -> predict solve argsortF g dg cfg x dxmax j a = Ok p ->
    length (pr_Dx p) = N /\ exists p', predict solve argsortF g' dg' (rescaled_cfg t cfg) x dxmax j a' = Ok p' /\ pre_unit p p'.
  Proof.
    intros Lx HS H. unfold predict in *. cbv zeta in *. cbn [rescaled_cfg cf_ftol cf_xtol cf_dxtol].
    apply bind_ok in H. destruct H as (xj & -> & H). cbn [bind].
    apply bind_ok in H. destruct H as (dj & -> & H). cbn [bind].
    apply bind_ok in H. destruct H as ([a1 o] & H1 & H).
    destruct (newton_unit _ _ _ _ _ _ _ _ _ _ _ Lx HS H1) as (Lo & a1' & o' & -> & (O1 & O2 & O3) & S1).
    cbn [bind]. rewrite O1, O2, O3. apply bind_ok in H. destruct H as (Dx & HDx & H). rewrite HDx. cbn [bind]. pose proof (bcast_N _ _ _ _ Lo Lx HDx) as LD.
    apply bind_ok in H. destruct H as ([i1 v1] & -> & H). cbn [bind].
    apply bind_ok in H. destruct H as (j' & -> & H). cbn [bind]. injection H as <-. cbn [pr_Dx]. split; [exact LD|].
    eexists. split; [reflexivity|]. repeat split; auto.
  Qed.

  Definition rc_unit (s s' : rcst R) : Prop :=
    Sim (rc_an s) (rc_an s') /\ rc_z s' = rc_z s /\ rc_j s' = rc_j s /\ rc_dxmax s' = rc_dxmax s /\
    rc_b s' = rc_b s /\ rc_npre s' = rc_npre s /\ rc_out s' = rc_out s.

  Lemma control_cfg cfg : forall d d0 j j0 z b m nf v, dxmax_control (rescaled_cfg t cfg) d d0 j j0 z b m nf v = dxmax_control cfg d d0 j j0 z b m nf v.
  Proof. reflexivity. Qed.

  Lemma recycle_unit cfg x0 dxmax0 pre : length x0 = N -> (forall d v, pre = Some (d, v) -> length d = N) -> forall fuel s s' r x stop, rc_unit s s' ->
    recycle solve argsortF g dg cfg x0 dxmax0 pre fuel s = Ok (r, x, stop) ->
    length x = N /\ exists r', recycle solve argsortF g' dg' (rescaled_cfg t cfg) x0 dxmax0 pre fuel s' = Ok (r', x, stop) /\ rc_unit r r'.
  Proof.
    intros L0 Hpre. induction fuel as [|fuel IH]; intros s s' r x stop HS H; [discriminate|].
    destruct HS as (S1 & E2 & E3 & E4 & E5 & E6 & E7).
    cbn [recycle] in *. cbv zeta in *. rewrite E2, E3, E4, E5, E6, E7.
    change (cf_ftol (rescaled_cfg t cfg)) with (t * cf_ftol cfg). change (cf_xtol (rescaled_cfg t cfg)) with (cf_xtol cfg). change (cf_nfev (rescaled_cfg t cfg)) with (cf_nfev cfg).
    change (cf_jfixed (rescaled_cfg t cfg)) with (cf_jfixed cfg). change (cf_dxtol (rescaled_cfg t cfg)) with (cf_dxtol cfg).
    change (cf_stepcontrol (rescaled_cfg t cfg)) with (cf_stepcontrol cfg). change (cf_cycl (rescaled_cfg t cfg)) with (cf_cycl cfg).
    apply bind_ok in H. destruct H as (xj & -> & H). cbn [bind].
    apply bind_ok in H. destruct H as (dj & -> & H). cbn [bind].
    apply bind_ok in H. destruct H as (xs & Hxs & H). rewrite Hxs. cbn [bind].
    assert (Lxs : length xs = N).
    { clear - Hxs L0 Hpre. destruct pre as [[d v]|]; [|injection Hxs as <-; exact L0]. destruct (rc_z s =? 0)%Z; [|injection Hxs as <-; exact L0].
      eapply bcast_N; [exact L0| |exact Hxs]. rewrite map_length. eapply Hpre. reflexivity. }
    apply bind_ok in H. destruct H as ([a1 o] & H1 & H).
    destruct (newton_unit _ _ _ _ _ _ _ _ _ _ _ Lxs S1 H1) as (Lo & a1' & o' & -> & (O1 & O2 & O3) & S1').
    cbn [bind]. rewrite O1, O2, O3.
    apply bind_ok in H. destruct H as (Dx & -> & H). cbn [bind].
    apply bind_ok in H. destruct H as ([i1 v1] & -> & H). cbn [bind].
    destruct (Nat.ltb (length (no_x o)) 2); [discriminate|].
    apply bind_ok in H. destruct H as (j & -> & H). cbn [bind].
    apply bind_ok in H. destruct H as (q & -> & H). cbn [bind].
    apply bind_ok in H. destruct H as (valid & -> & H). cbn [bind]. rewrite control_cfg.
    apply bind_ok in H. destruct H as ([[[dxmax' z'] b'] changed] & -> & H). cbn [bind].
    pose proof (HdV (rc_dxmax s) _ _ S1') as S2.
    destruct (valid && no_success o).
    - apply bind_ok in H. destruct H as ([a3 y] & H3 & H).
      destruct (f_ext_unit _ _ _ _ _ _ _ _ _ S2 H3) as (u & vj & a3' & _ & _ & _ & -> & S3). cbn [bind].
      injection H as <- <- <-. split; [exact Lo|]. eexists. split; [reflexivity|]. repeat split; auto.
    - destruct (z' + 1 =? cf_cycl cfg)%Z.
      { injection H as <- <- <-. split; [exact Lo|]. eexists. split; [reflexivity|]. repeat split; auto. }
      destruct (_ && _ && _).
      { injection H as <- <- <-. split; [exact Lo|]. eexists. split; [reflexivity|]. repeat split; auto. }
      eapply IH; [|exact H]. repeat split; auto.
  Qed.

  Definition rec_unit (r r' : list R * AN) : Prop := fst r' = fst r /\ Sim (snd r) (snd r').

  Definition pf_unit (s s' : pfst R) : Prop :=
    Sim (ps_an s) (ps_an s') /\ ps_x s' = ps_x s /\ ps_j s' = ps_j s /\ ps_jpre s' = ps_jpre s /\
    ps_dxmax s' = ps_dxmax s /\ ps_b s' = ps_b s /\ Forall2 rec_unit (ps_res s) (ps_res s') /\
    ps_out s' = ps_out s.

  Lemma increment_unit cfg dxmax0 fuel s s' q stop : length (ps_x s) = N -> pf_unit s s' ->
    increment solve argsortF g dg cfg dxmax0 fuel s = Ok (q, stop) ->
    length (ps_x q) = N /\ exists q', increment solve argsortF g' dg' (rescaled_cfg t cfg) dxmax0 fuel s' = Ok (q', stop) /\ pf_unit q q'.
  Proof.
    intros Lx (S1 & E2 & E3 & E4 & E5 & E6 & E7 & E8) H. unfold increment in *. cbv zeta in *.
    change (cf_jfixed (rescaled_cfg t cfg)) with (cf_jfixed cfg).
    rewrite E2, E3, E4, E5, E6, E8.
    assert (Hfin : forall a a' x, length x = N -> Sim a a' -> Sim (set_lpf (last x f0) (set_Ured (removelast x) (set_Vred x a)))
                                              (set_lpf (last x f0) (set_Ured (removelast x) (set_Vred x a')))).
    { intros a a' x Hx Sa. apply Hlpf, HUr, HVr, Sa. destruct (exists_last (l := x)) as (y & z & ->); [intros ->; discriminate|]. rewrite removelast_last. rewrite app_length in Hx. cbn in Hx. lia. }
    assert (Hres : forall (a a' : AN) x, Sim a a' -> Forall2 rec_unit (ps_res s ++ [(x, a)]) (ps_res s' ++ [(x, a')])).
    { intros a a' x Sa. apply Forall2_app; [exact E7|]. constructor; [|constructor]. split; auto. }
    destruct (ps_jpre s && negb (cf_jfixed cfg)).
    - apply bind_ok in H. destruct H as (p & Hp & H).
      destruct (predict_unit _ _ _ _ _ _ _ Lx S1 Hp) as (LD & p' & -> & P1 & P2 & P3 & P4 & P5 & P6). cbn [bind].
      rewrite P2, P3, P4, P5, P6. destruct (pr_success p).
      + injection H as <- <-. cbn [ps_x]. split; [exact Lx|]. eexists. split; [reflexivity|]. unfold pf_unit. cbn. repeat split; auto.
      + apply bind_ok in H. destruct H as ([[r x] st] & Hr & H).
        assert (HR : rc_unit (Rc (pr_an p) 0%Z (pr_j p) (ps_dxmax s) (ps_b s) (pr_n p) (ps_out s ++ [MIncr]))
                            (Rc (pr_an p') 0%Z (pr_j p) (ps_dxmax s) (ps_b s) (pr_n p) (ps_out s ++ [MIncr]))) by (repeat split; auto).
        assert (Hpre : forall d v, (if negb (pr_j p =? 0)%Z then Some (pr_Dx p, pr_v p) else None) = Some (d, v) -> length d = N).
        { intros d v E. destruct (negb _); [|discriminate]. injection E as <- <-. exact LD. }
        destruct (recycle_unit _ _ _ _ Lx Hpre _ _ _ _ _ _ HR Hr) as (Lx' & r' & -> & R1 & R2 & R3 & R4 & R5 & R6 & R7).
        cbn [bind]. injection H as <- <-. cbn [ps_x]. split; [exact Lx'|]. eexists. split; [reflexivity|]. unfold pf_unit. cbn.
        rewrite R3, R4, R5, R7. repeat split; auto.
    - apply bind_ok in H. destruct H as ([[r x] st] & Hr & H).
      assert (HR : rc_unit (Rc (ps_an s) 0%Z (ps_j s) (ps_dxmax s) (ps_b s) 0%Z (ps_out s ++ [MIncr]))
                          (Rc (ps_an s') 0%Z (ps_j s) (ps_dxmax s) (ps_b s) 0%Z (ps_out s ++ [MIncr]))) by (repeat split; auto).
      destruct (recycle_unit _ _ _ None Lx ltac:(discriminate) _ _ _ _ _ _ HR Hr) as (Lx' & r' & -> & R1 & R2 & R3 & R4 & R5 & R6 & R7).
      cbn [bind]. injection H as <- <-. cbn [ps_x]. split; [exact Lx'|]. eexists. split; [reflexivity|]. unfold pf_unit. cbn.
      rewrite R3, R4, R5, R7. repeat split; auto.
  Qed.

  Lemma increments_unit cfg dxmax0 fuel : forall k s s' q, length (ps_x s) = N -> pf_unit s s' ->
    increments solve argsortF g dg cfg dxmax0 fuel k s = Ok q ->
    exists q', increments solve argsortF g' dg' (rescaled_cfg t cfg) dxmax0 fuel k s' = Ok q' /\ pf_unit q q'.
  Proof.
    induction k as [|k IH]; intros s s' q Lx HS H; cbn [increments] in *.
    - injection H as <-. eauto.
    - apply bind_ok in H. destruct H as ([s1 stop] & H1 & H).
      destruct (increment_unit _ _ _ _ _ _ _ Lx HS H1) as (Lx1 & s1' & -> & S1). cbn [bind].
      destruct stop; [injection H as <-; eauto|].
      assert (Ex : ps_x s1' = ps_x s1) by apply S1. rewrite Ex. change (beyond_limit (rescaled_cfg t cfg) (ps_x s1)) with (beyond_limit cfg (ps_x s1)).
      apply bind_ok in H. destruct H as (lim & -> & H). cbn [bind].
      destruct lim; [|eapply IH; eassumption].
      injection H as <-. eexists. split; [reflexivity|].
      destruct S1 as (A1 & A2 & A3 & A4 & A5 & A6 & A7 & A8). unfold pf_unit. cbn. rewrite A8. repeat split; auto.
  Qed.

  Lemma pathfollow_unit Ured a a' d j jpre cfg fuel q : length Ured = n -> Sim a a' ->
    pathfollow solve argsortF g dg Ured a d j jpre cfg fuel = Ok q ->
    exists q', pathfollow solve argsortF g' dg' Ured a' d j jpre (rescaled_cfg t cfg) fuel = Ok q' /\ pf_unit q q'.
  Proof.
    intros LU HS H. unfold pathfollow in *. cbv zeta in *.
    change (cf_jfixed (rescaled_cfg t cfg)) with (cf_jfixed cfg). change (cf_incs (rescaled_cfg t cfg)) with (cf_incs cfg).
    assert (Lx : length (Ured ++ [f0]) = N) by (rewrite app_length; cbn; lia).
    assert (Hst : forall j, pf_unit (Pf a (Ured ++ [f0]) j jpre (expand_dxmax (length (Ured ++ [f0])) d) 4%Z [(Ured ++ [f0], a)] [])
                                   (Pf a' (Ured ++ [f0]) j jpre (expand_dxmax (length (Ured ++ [f0])) d) 4%Z [(Ured ++ [f0], a')] [])).
    { intros j0. repeat split; auto. constructor; [split; auto|constructor]. }
    destruct (negb (cf_jfixed cfg)); [eapply increments_unit; [|apply Hst|exact H]; exact Lx|].
    destruct j as [j|]; [eapply increments_unit; [|apply Hst|exact H]; exact Lx|].
    destruct (cf_incs cfg <=? 0)%Z; [|discriminate]. injection H as <-. eauto.
  Qed.
End Path.
