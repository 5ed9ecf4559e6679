(** * Two runs of the path follower on corresponding callbacks *)
From Coq Require Import List ZArith Bool Arith Lia.
Import ListNotations.
From Verif Require Import Num Vec Analysis Solver ListFacts.

Section Sim.
  Context {F : Type} `{NF : Num F}.
  Variable solve : list (list F) -> list F -> list F.
  Variable argsortF : list F -> list nat.
  Notation AN := (analysis F).
  Variables g g' : gfun F.
  Variables dg dg' : kfun F.
  Variable Sim : AN -> AN -> Prop.

  Definition fwd {A} (r r' : res (AN * A)) : Prop :=
    forall b x, r = Ok (b, x) -> exists b', r' = Ok (b', x) /\ Sim b b'.

  Hypothesis Hg : forall V V0 w a a', Sim a a' -> fwd (g V V0 w a) (g' V V0 w a').
  Hypothesis Hk : forall V a a', Sim a a' -> fwd (dg V a) (dg' V a').
  Hypothesis Hj : forall v a a', Sim a a' -> Sim (set_j v a) (set_j v a').
  Hypothesis HKm : forall v a a', Sim a a' -> Sim (set_Kmod v a) (set_Kmod v a').
  Hypothesis HdV : forall v a a', Sim a a' -> Sim (set_dVmax v a) (set_dVmax v a').
  Hypothesis Hlpf : forall v a a', Sim a a' -> Sim (set_lpf v a) (set_lpf v a').
  Hypothesis HUr : forall v a a', Sim a a' -> Sim (set_Ured v a) (set_Ured v a').
  Hypothesis HVr : forall v a a', Sim a a' -> Sim (set_Vred v a) (set_Vred v a').
  Hypothesis Hf0 : forall a a', Sim a a' -> a_f0red a' = a_f0red a.

  Lemma f_ext_sim V0 j Vmax w V a a' : Sim a a' -> fwd (f_ext g V0 j Vmax w V a) (f_ext g' V0 j Vmax w V a').
  Proof.
    intros HS b x H. unfold f_ext in *. apply bind_ok in H. destruct H as ([a1 gr] & H1 & H).
    destruct (Hg _ _ _ _ _ (Hj j _ _ HS) _ _ H1) as (b' & E & HS').
    rewrite E. cbn [bind]. apply bind_ok in H. destruct H as (vj & Hv & H). rewrite Hv. cbn [bind].
    injection H as <- <-. eauto.
  Qed.

  Lemma dfdx_sim j V a a' : Sim a a' -> fwd (dfdx dg j V a) (dfdx dg' j V a').
  Proof.
    intros HS b x H. unfold dfdx in *. apply bind_ok in H. destruct H as (qc & Hq & H). rewrite Hq. cbn [bind].
    apply bind_ok in H. destruct H as ([a1 K] & H1 & H).
    destruct (Hk _ _ _ (Hj j _ _ HS) _ _ H1) as (b' & E & HS'). rewrite E. cbn [bind].
    rewrite (Hf0 _ _ HS'). apply bind_ok in H. destruct H as (Kf & HK & H). rewrite HK. cbn [bind].
    destruct (forallb _ Kf); [|discriminate]. injection H as <- <-. eauto.
  Qed.

  Lemma newton_sim fn fn' dfn dfn' x nfev ftol xtol a a' :
    (forall x a a', Sim a a' -> fwd (fn x a) (fn' x a')) ->
    (forall x a a', Sim a a' -> fwd (dfn x a) (dfn' x a')) ->
    Sim a a' -> fwd (newton solve fn dfn x nfev ftol xtol a) (newton solve fn' dfn' x nfev ftol xtol a').
  Proof.
    intros Hfn Hdfn. unfold newton. generalize (Z.to_nat nfev), 0%Z, (@None (F * F)).
    intros k. revert x a a'. induction k as [|k IH]; intros x a a' n prev HS b o H; cbn [newton_loop] in *.
    - destruct prev as [[p1 p2]|]; [|discriminate]. injection H as <- <-. eauto.
    - apply bind_ok in H. destruct H as ([s1 Km] & H1 & H).
      destruct (Hdfn _ _ _ HS _ _ H1) as (s1' & -> & S1). cbn [bind].
      apply bind_ok in H. destruct H as ([s2 fv] & H2 & H).
      destruct (Hfn _ _ _ S1 _ _ H2) as (s2' & -> & S2). cbn [bind].
      apply bind_ok in H. destruct H as (x' & Hx & H). rewrite Hx. cbn [bind].
      apply bind_ok in H. destruct H as ([s3 fv'] & H3 & H).
      destruct (Hfn _ _ _ S2 _ _ H3) as (s3' & -> & S3). cbn [bind]. cbv zeta in *.
      destruct (_ && _); [injection H as <- <-; eauto|]. eapply IH; eassumption.
  Qed.

  Lemma newton_ext_sim V0 j Vmax x nfev ftol xtol a a' : Sim a a' ->
    fwd (newton solve (f_ext g V0 j Vmax false) (dfdx dg j) x nfev ftol xtol a)
        (newton solve (f_ext g' V0 j Vmax false) (dfdx dg' j) x nfev ftol xtol a').
  Proof.
    apply newton_sim; intros; [apply f_ext_sim | apply dfdx_sim]; assumption.
  Qed.

  Definition pre_sim (p p' : pre_out F) : Prop :=
    Sim (pr_an p) (pr_an p') /\ pr_j p' = pr_j p /\ pr_success p' = pr_success p /\ pr_n p' = pr_n p /\
    pr_Dx p' = pr_Dx p /\ pr_v p' = pr_v p.

  Lemma predict_sim cfg x dxmax j a a' p : Sim a a' -> predict solve argsortF g dg cfg x dxmax j a = Ok p ->
    exists p', predict solve argsortF g' dg' cfg x dxmax j a' = Ok p' /\ pre_sim p p'.
  Proof.
    intros HS H. unfold predict in *. cbv zeta in *.
    apply bind_ok in H. destruct H as (xj & -> & H). cbn [bind].
    apply bind_ok in H. destruct H as (dj & -> & H). cbn [bind].
    apply bind_ok in H. destruct H as ([a1 o] & H1 & H).
    destruct (newton_ext_sim _ _ _ _ _ _ _ _ _ HS _ _ H1) as (a1' & -> & S1).
    cbn [bind]. apply bind_ok in H. destruct H as (Dx & -> & H). cbn [bind].
    apply bind_ok in H. destruct H as ([i1 v1] & -> & H). cbn [bind].
    apply bind_ok in H. destruct H as (j' & -> & H). cbn [bind]. injection H as <-.
    eexists. split; [reflexivity|]. repeat split; auto.
  Qed.

  Definition rc_sim (s s' : rcst F) : Prop :=
    Sim (rc_an s) (rc_an s') /\ rc_z s' = rc_z s /\ rc_j s' = rc_j s /\ rc_dxmax s' = rc_dxmax s /\
    rc_b s' = rc_b s /\ rc_npre s' = rc_npre s /\ rc_out s' = rc_out s.

  Lemma recycle_sim cfg x0 dxmax0 pre : forall fuel s s' r x stop, rc_sim s s' ->
    recycle solve argsortF g dg cfg x0 dxmax0 pre fuel s = Ok (r, x, stop) ->
    exists r', recycle solve argsortF g' dg' cfg x0 dxmax0 pre fuel s' = Ok (r', x, stop) /\ rc_sim r r'.
  Proof.
    induction fuel as [|fuel IH]; intros s s' r x stop HS H; [discriminate|].
    destruct HS as (S1 & E2 & E3 & E4 & E5 & E6 & E7).
    cbn [recycle] in *. cbv zeta in *. rewrite E2, E3, E4, E5, E6, E7.
    apply bind_ok in H. destruct H as (xj & -> & H). cbn [bind].
    apply bind_ok in H. destruct H as (dj & -> & H). cbn [bind].
    apply bind_ok in H. destruct H as (xs & -> & H). cbn [bind].
    apply bind_ok in H. destruct H as ([a1 o] & H1 & H).
    destruct (newton_ext_sim _ _ _ _ _ _ _ _ _ S1 _ _ H1) as (a1' & -> & S1').
    cbn [bind].
    apply bind_ok in H. destruct H as (Dx & -> & H). cbn [bind].
    apply bind_ok in H. destruct H as ([i1 v1] & -> & H). cbn [bind].
    destruct (Nat.ltb (length (no_x o)) 2); [discriminate|].
    apply bind_ok in H. destruct H as (j & -> & H). cbn [bind].
    apply bind_ok in H. destruct H as (q & -> & H). cbn [bind].
    apply bind_ok in H. destruct H as (valid & -> & H). cbn [bind].
    apply bind_ok in H. destruct H as ([[[dxmax' z'] b'] changed] & -> & H). cbn [bind].
    pose proof (HdV (rc_dxmax s) _ _ S1') as S2.
    destruct (valid && no_success o).
    - apply bind_ok in H. destruct H as ([a3 y] & H3 & H).
      destruct (f_ext_sim _ _ _ _ _ _ _ S2 _ _ H3) as (a3' & -> & S3). cbn [bind].
      injection H as <- <- <-. eexists. split; [reflexivity|]. repeat split; auto.
    - destruct (z' + 1 =? cf_cycl cfg)%Z.
      { injection H as <- <- <-. eexists. split; [reflexivity|]. repeat split; auto. }
      destruct (_ && _ && _).
      { injection H as <- <- <-. eexists. split; [reflexivity|]. repeat split; auto. }
      eapply IH; [|exact H]. repeat split; auto.
  Qed.

  Definition rec_sim (r r' : list F * AN) : Prop := fst r' = fst r /\ Sim (snd r) (snd r').

  Definition pf_sim (s s' : pfst F) : Prop :=
    Sim (ps_an s) (ps_an s') /\ ps_x s' = ps_x s /\ ps_j s' = ps_j s /\ ps_jpre s' = ps_jpre s /\
    ps_dxmax s' = ps_dxmax s /\ ps_b s' = ps_b s /\ Forall2 rec_sim (ps_res s) (ps_res s') /\
    ps_out s' = ps_out s.

  Lemma increment_sim cfg dxmax0 fuel s s' t stop : pf_sim s s' ->
    increment solve argsortF g dg cfg dxmax0 fuel s = Ok (t, stop) ->
    exists t', increment solve argsortF g' dg' cfg dxmax0 fuel s' = Ok (t', stop) /\ pf_sim t t'.
  Proof.
    intros (S1 & E2 & E3 & E4 & E5 & E6 & E7 & E8) H. unfold increment in *. cbv zeta in *.
    rewrite E2, E3, E4, E5, E6, E8.
    assert (Hfin : forall a a' x, Sim a a' -> Sim (set_lpf (last x f0) (set_Ured (removelast x) (set_Vred x a)))
                                              (set_lpf (last x f0) (set_Ured (removelast x) (set_Vred x a')))) by auto.
    assert (Hres : forall (a a' : AN) x, Sim a a' -> Forall2 rec_sim (ps_res s ++ [(x, a)]) (ps_res s' ++ [(x, a')])).
    { intros a a' x Sa. apply Forall2_app; [exact E7|]. constructor; [|constructor]. split; auto. }
    destruct (ps_jpre s && negb (cf_jfixed cfg)).
    - apply bind_ok in H. destruct H as (p & Hp & H).
      destruct (predict_sim _ _ _ _ _ _ _ S1 Hp) as (p' & -> & P1 & P2 & P3 & P4 & P5 & P6). cbn [bind].
      rewrite P2, P3, P4, P5, P6. destruct (pr_success p).
      + injection H as <- <-. eexists. split; [reflexivity|]. unfold pf_sim. cbn. repeat split; auto.
      + apply bind_ok in H. destruct H as ([[r x] st] & Hr & H).
        assert (HR : rc_sim (Rc (pr_an p) 0%Z (pr_j p) (ps_dxmax s) (ps_b s) (pr_n p) (ps_out s ++ [MIncr]))
                            (Rc (pr_an p') 0%Z (pr_j p) (ps_dxmax s) (ps_b s) (pr_n p) (ps_out s ++ [MIncr]))) by (repeat split; auto).
        destruct (recycle_sim _ _ _ _ _ _ _ _ _ _ HR Hr) as (r' & -> & R1 & R2 & R3 & R4 & R5 & R6 & R7).
        cbn [bind]. injection H as <- <-. eexists. split; [reflexivity|]. unfold pf_sim. cbn.
        rewrite R3, R4, R5, R7. repeat split; auto.
    - apply bind_ok in H. destruct H as ([[r x] st] & Hr & H).
      assert (HR : rc_sim (Rc (ps_an s) 0%Z (ps_j s) (ps_dxmax s) (ps_b s) 0%Z (ps_out s ++ [MIncr]))
                          (Rc (ps_an s') 0%Z (ps_j s) (ps_dxmax s) (ps_b s) 0%Z (ps_out s ++ [MIncr]))) by (repeat split; auto).
      destruct (recycle_sim _ _ _ _ _ _ _ _ _ _ HR Hr) as (r' & -> & R1 & R2 & R3 & R4 & R5 & R6 & R7).
      cbn [bind]. injection H as <- <-. eexists. split; [reflexivity|]. unfold pf_sim. cbn.
      rewrite R3, R4, R5, R7. repeat split; auto.
  Qed.

  Lemma increments_sim cfg dxmax0 fuel : forall k s s' t, pf_sim s s' ->
    increments solve argsortF g dg cfg dxmax0 fuel k s = Ok t ->
    exists t', increments solve argsortF g' dg' cfg dxmax0 fuel k s' = Ok t' /\ pf_sim t t'.
  Proof.
    induction k as [|k IH]; intros s s' t HS H; cbn [increments] in *.
    - injection H as <-. eauto.
    - apply bind_ok in H. destruct H as ([s1 stop] & H1 & H).
      destruct (increment_sim _ _ _ _ _ _ _ HS H1) as (s1' & -> & S1). cbn [bind].
      destruct stop; [injection H as <-; eauto|].
      assert (Ex : ps_x s1' = ps_x s1) by apply S1. rewrite Ex.
      apply bind_ok in H. destruct H as (lim & -> & H). cbn [bind].
      destruct lim; [|eapply IH; eassumption].
      injection H as <-. eexists. split; [reflexivity|].
      destruct S1 as (A1 & A2 & A3 & A4 & A5 & A6 & A7 & A8). unfold pf_sim. cbn. rewrite A8. repeat split; auto.
  Qed.

  Lemma pathfollow_sim Ured a a' d j jpre cfg fuel t : Sim a a' ->
    pathfollow solve argsortF g dg Ured a d j jpre cfg fuel = Ok t ->
    exists t', pathfollow solve argsortF g' dg' Ured a' d j jpre cfg fuel = Ok t' /\ pf_sim t t'.
  Proof.
    intros HS H. unfold pathfollow in *. cbv zeta in *.
    assert (Hst : forall j, pf_sim (Pf a (Ured ++ [f0]) j jpre (expand_dxmax (length (Ured ++ [f0])) d) 4%Z [(Ured ++ [f0], a)] [])
                                   (Pf a' (Ured ++ [f0]) j jpre (expand_dxmax (length (Ured ++ [f0])) d) 4%Z [(Ured ++ [f0], a')] [])).
    { intros j0. repeat split; auto. constructor; [split; auto|constructor]. }
    destruct (negb (cf_jfixed cfg)); [eapply increments_sim; eauto|].
    destruct j as [j|]; [eapply increments_sim; eauto|].
    destruct (cf_incs cfg <=? 0)%Z; [|discriminate]. injection H as <-. eauto.
  Qed.
End Sim.
