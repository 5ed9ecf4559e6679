(** * The increments recorded by pathfollow *)
From Coq Require Import List ZArith Bool Arith Lia.
Import ListNotations.
From Verif Require Import Num Vec Analysis Solver ListFacts SpecSolver SolverFacts.

Section Path.
  Context {F : Type} `{NF : Num F}.
  Variable solve : list (list F) -> list F -> list F.
  Variable argsortF : list F -> list nat.
  Notation AN := (analysis F).
  Variables (g : gfun F) (dg : kfun F) (cfg : pfcfg F) (dxmax0 : list F).
  Notation corr := (corrector solve g dg cfg).
  Notation conv t := (converged (cf_ftol cfg) (cf_xtol cfg) t).

  (** [I j dxmax]: invariant of control component and step limits.
      [R a a']: what evaluations without the write flag may change. *)
  Variable I : Z -> list F -> Prop.
  Variable R : AN -> AN -> Prop.
  (** The initial setting of the predictor. *)
  Variable jp : bool.

  Definition keeps_I : Prop :=
    (forall x0 pre s xmax ts t j valid dxmax' z' b' changed,
      I (rc_j s) (rc_dxmax s) ->
      pass solve argsortF g dg cfg x0 dxmax0 pre s xmax ts t j valid dxmax' z' b' changed ->
      I j dxmax' /\ I (rc_j s) dxmax') /\
    (cf_jfixed cfg = false -> forall j j' d, I j d -> I j' d).

  Definition quiet : Prop :=
    (forall a, R a a) /\ (forall a b c, R a b -> R b c -> R a c) /\
    (forall V V0 a a' v, g V V0 false a = Ok (a', v) -> R a a') /\
    (forall U a a' K, dg U a = Ok (a', K) -> R a a') /\
    (forall j a, R a (set_j j a)) /\
    (forall j d a, I j d -> R a (set_dVmax d a)) /\
    (forall K a, R a (set_Kmod K a)).

  (** [accepted], [skipped], [failed] with the invariant and the change
      relative to the previous record [an0]. *)
  Definition acc (x0 : list F) (an0 : AN) (x : list F) (an' : AN) : Prop :=
    exists j dxmax xmax xs nfev an ts t an2 v,
      I j dxmax /\ (cf_nfev cfg - 1 <= nfev <= cf_nfev cfg)%Z /\ R an0 an /\ R an0 (it_s t) /\
      corr x0 j dxmax xmax xs nfev an ts t /\ conv t = true /\
      it_x t = x /\ ((2 <= length x)%nat /\ ((2 <= length x0)%nat -> length x = length x0)) /\
      within cfg x0 x dxmax j /\
      f_ext g x0 j xmax true x (set_dVmax dxmax (it_s t)) = Ok (an2, v) /\
      an' = recorded x an2.

  Definition skp (x0 : list F) (an0 : AN) (x : list F) (an' : AN) : Prop :=
    jp = true /\ cf_jfixed cfg = false /\
    exists j dxmax xmax an t,
      I j dxmax /\ R an0 an /\ R an0 (it_s t) /\
      corr x0 j dxmax xmax x0 1 an [] t /\ conv t = true /\
      x = x0 /\ an' = recorded x0 (it_s t).

  Definition fld (x0 : list F) (an0 : AN) (x : list F) (an' : AN) : Prop :=
    exists j dxmax xmax xs nfev an ts t,
      I j dxmax /\ (cf_nfev cfg - 1 <= nfev <= cf_nfev cfg)%Z /\ R an0 an /\ R an0 (it_s t) /\
      corr x0 j dxmax xmax xs nfev an ts t /\
      it_x t = x /\ ((2 <= length x)%nat /\ ((2 <= length x0)%nat -> length x = length x0)) /\
      an' = recorded x (set_dVmax dxmax (it_s t)) /\
      (conv t = false \/ ~ within cfg x0 x dxmax j).

  Inductive good : list F -> AN -> list (list F * AN) -> Prop :=
  | g_nil x0 an0 : good x0 an0 []
  | g_cons x0 an0 x an' rest : acc x0 an0 x an' \/ skp x0 an0 x an' ->
      good x an' rest -> good x0 an0 ((x, an') :: rest).

  Lemma f_ext_quiet x0 j xmax V a a' v :
    quiet -> f_ext g x0 j xmax false V a = Ok (a', v) -> R a a'.
  Proof.
    intros (Hr & Ht & Hg & _ & Hj & _) H. unfold f_ext in H.
    apply bind_ok in H. destruct H as ([a1 gr] & Hgr & H).
    apply bind_ok in H. destruct H as (vj & _ & H). injection H as <- _.
    eapply Ht; [apply (Hj j)|]. eapply Hg, Hgr.
  Qed.

  Lemma dfdx_quiet j V a a' K : quiet -> dfdx dg j V a = Ok (a', K) -> R a a'.
  Proof.
    intros (Hr & Ht & _ & Hk & Hj & _ & HK) H. unfold dfdx in H.
    apply bind_ok in H. destruct H as (qc & _ & H).
    apply bind_ok in H. destruct H as ([a1 K1] & Hk1 & H).
    apply bind_ok in H. destruct H as (Kf & _ & H).
    destruct (forallb _ Kf); [|discriminate]. injection H as <- _.
    eapply Ht; [apply (Hj j)|]. eapply Ht; [eapply Hk, Hk1|apply HK].
  Qed.

  Lemma corr_quiet x0 j dxmax xmax xs nfev an ts t :
    quiet -> corr x0 j dxmax xmax xs nfev an ts t -> R an (it_s t).
  Proof.
    intros Q (xj & dj & _ & _ & _ & Ht & _).
    eapply (trace_inv solve _ _ (R an) (fun _ _ => True)) in Ht; [apply Ht| | |apply Q].
    - intros x s s' v Hs Hf. split; [|exact Logic.I]. apply f_ext_quiet in Hf; [|exact Q].
      eapply (proj1 (proj2 Q)); eassumption.
    - intros x s s' K Hs Hd. apply dfdx_quiet in Hd; [|exact Q].
      eapply (proj1 (proj2 Q)); eassumption.
  Qed.

  Hypothesis HI : keeps_I.
  Hypothesis Q : quiet.
  Let Rt : forall a b c, R a b -> R b c -> R a c := proj1 (proj2 Q).

  Definition is_recycle (m : msg) : Prop := m = MRecycle.

  (** The recycle loop: accepted without, failed with an ERROR line. *)
  Lemma recycle_ok x0 an0 pre : forall fuel s r x stop,
    recycle solve argsortF g dg cfg x0 dxmax0 pre fuel s = Ok (r, x, stop) ->
    I (rc_j s) (rc_dxmax s) -> R an0 (rc_an s) -> (0 <= rc_npre s <= 1)%Z ->
    I (rc_j r) (rc_dxmax r) /\
    exists ms, (forall m, In m ms -> m = MRecycle) /\
    ((stop = false /\ acc x0 an0 x (recorded x (rc_an r)) /\ rc_out r = rc_out s ++ ms) \/
     (stop = true /\ fld x0 an0 x (recorded x (rc_an r)) /\
      exists e, error_line e /\ rc_out r = rc_out s ++ ms ++ [e])).
  Proof.
    induction fuel as [|fuel IH]; intros s r x stop H Hi Hr Hnp; [discriminate|].
    apply recycle_pass in H.
    destruct H as (xmax & ts & t & j & valid & dxmax' & z' & b' & changed & Hp & H).
    pose proof (proj1 HI _ _ _ _ _ _ _ _ _ _ _ _ Hi Hp) as [Hi1 Hi2].
    pose proof (pass_within _ _ _ _ _ _ _ _ _ _ _ _ _ _ _ _ _ _ Hp) as Hw.
    destruct Hp as (xs & Dx & q & i1 & v1 & Hc & _ & Hxs & _ & _ & Hlen0 & _).
    assert (Hlen : (2 <= length (it_x t))%nat /\
                   ((2 <= length x0)%nat -> length (it_x t) = length x0)).
    { split; [exact Hlen0|]. intros H2.
      assert (Hl : length xs = length x0).
      { destruct pre as [[Dp v]|]; [|congruence]. destruct (rc_z s =? 0)%Z; [|congruence].
        eapply bcast2_length_l; [exact Hxs|exact H2]. }
      destruct Hc as (xj & dj & _ & _ & _ & Htr & _).
      rewrite <- Hl. eapply trace_length; [|exact Htr]. lia. }
    assert (Rt2 : R an0 (it_s t)).
    { eapply Rt; [exact Hr|]. eapply corr_quiet; eassumption. }
    cbv zeta in H.
    destruct H as [(Hvc & -> & -> & an3 & v & Hf & ->)
                  |[(Hvc & Hz & -> & -> & ->)
                  |[(Hvc & Hz & Hj & Hcv & Hch & -> & -> & ->)
                  |(Hvc & Hz & Hn & H)]]].
    - apply andb_prop in Hvc. destruct Hvc as [Hv Hcv].
      split; [exact Hi1|]. exists []. split; [intros m []|]. left.
      cbn [rc_an rc_out]. rewrite app_nil_r. repeat split.
      exists (rc_j s), (rc_dxmax s), xmax, xs, (cf_nfev cfg - rc_npre s)%Z, (rc_an s), ts, t, an3, v.
      repeat match goal with |- _ /\ _ => split end; try assumption; try reflexivity; try lia. now apply Hw.
    - split; [exact Hi1|]. exists []. split; [intros m []|]. right.
      cbn [rc_an rc_out app]. split; [reflexivity|]. split.
      + exists (rc_j s), (rc_dxmax s), xmax, xs, (cf_nfev cfg - rc_npre s)%Z, (rc_an s), ts, t.
        repeat match goal with |- _ /\ _ => split end; try assumption; try reflexivity; try lia.
        apply andb_false_iff in Hvc. destruct Hvc as [Hv|Hv]; [right|left; exact Hv].
        intros C. apply Hw in C. congruence.
      + exists MError1. split; [left; reflexivity|reflexivity].
    - split; [exact Hi1|]. exists []. split; [intros m []|]. right.
      cbn [rc_an rc_out app]. split; [reflexivity|]. split.
      + exists (rc_j s), (rc_dxmax s), xmax, xs, (cf_nfev cfg - rc_npre s)%Z, (rc_an s), ts, t.
        repeat match goal with |- _ /\ _ => split end; try assumption; try reflexivity; try lia.
        left; exact Hcv.
      + exists MError2. split; [right; reflexivity|reflexivity].
    - apply IH in H; cbn [rc_j rc_dxmax rc_an rc_out] in *.
      + destruct H as (Hir & ms & Hms & H). split; [exact Hir|].
        exists (MRecycle :: ms). split; [intros m [<-|Hm]; auto|].
        destruct H as [(-> & Ha & ->)|(-> & Ha & e & He & ->)]; [left|right];
          repeat split; try assumption; [now rewrite <- app_assoc|].
        exists e. split; [exact He|]. now rewrite <- app_assoc.
      + destruct (conv t); assumption.
      + eapply Rt; [exact Rt2|]. eapply (proj1 (proj2 (proj2 (proj2 (proj2 (proj2 Q)))))). exact Hi.
      + cbn. lia.
  Qed.

  Lemma predict_ok x0 an0 dxmax j an p :
    predict solve argsortF g dg cfg x0 dxmax j an = Ok p ->
    I j dxmax -> R an0 an ->
    exists xmax t, corr x0 j dxmax xmax x0 1 an [] t /\ pr_an p = it_s t /\
      R an0 (it_s t) /\ pr_n p = 1%Z /\
      (pr_success p = true -> conv t = true).
  Proof.
    intros H Hi Hr. unfold predict in H.
    apply bind_ok in H. destruct H as (xj & Hxj & H).
    apply bind_ok in H. destruct H as (dj & Hdj & H). cbv zeta in H.
    apply bind_ok in H. destruct H as ([an1 o] & Hnw & H).
    apply newton_iff in Hnw.
    destruct Hnw as (ts & t & Ht & Hnc & -> & Hox & Hos & Hon & _ & _ & Hle & Hex).
    rewrite Hon in Hle. rewrite app_length in Hle. cbn [length] in Hle.
    assert (ts = []) as -> by (destruct ts; [reflexivity|cbn [length] in Hle; lia]).
    apply bind_ok in H. destruct H as (Dx & HDx & H).
    apply bind_ok in H. destruct H as ([i1 v1] & Hbig & H).
    apply bind_ok in H. destruct H as (j' & Hj' & H). injection H as <-.
    cbn [pr_an pr_success pr_n].
    set (xmax := fadd xj (fmul dj (fofZ (Z.sgn j)))) in *.
    assert (Hc : corr x0 j dxmax xmax x0 1 an [] t).
    { exists xj, dj. repeat split; try assumption. }
    exists xmax, t. repeat match goal with |- _ /\ _ => split end; try assumption; try reflexivity.
    - eapply Rt; [exact Hr|]. eapply corr_quiet; eassumption.
    - destruct (fltb _ _); [discriminate|]. rewrite Hos. auto.
  Qed.

  (** One increment. *)
  Lemma increment_ok fuel s s' stop :
    increment solve argsortF g dg cfg dxmax0 fuel s = Ok (s', stop) ->
    I (ps_j s) (ps_dxmax s) -> (ps_jpre s = true -> jp = true) ->
    I (ps_j s') (ps_dxmax s') /\ (ps_jpre s' = true -> jp = true) /\
    ps_res s' = ps_res s ++ [(ps_x s', ps_an s')] /\
    exists ms, (forall m, In m ms -> m = MIncr \/ m = MRecycle) /\
    ((stop = false /\ ps_out s' = ps_out s ++ ms /\
       (acc (ps_x s) (ps_an s) (ps_x s') (ps_an s') \/ skp (ps_x s) (ps_an s) (ps_x s') (ps_an s'))) \/
     (stop = true /\ fld (ps_x s) (ps_an s) (ps_x s') (ps_an s') /\
       exists e, error_line e /\ ps_out s' = ps_out s ++ ms ++ [e])).
  Proof.
    intros H Hi Hjp. unfold increment in H. cbv zeta in H.
    assert (Hrefl : R (ps_an s) (ps_an s)) by apply Q.
    assert (Hfin : forall pre s0 r x stop0,
      recycle solve argsortF g dg cfg (ps_x s) dxmax0 pre fuel s0 = Ok (r, x, stop0) ->
      I (rc_j s0) (rc_dxmax s0) -> R (ps_an s) (rc_an s0) -> (0 <= rc_npre s0 <= 1)%Z -> rc_out s0 = ps_out s ++ [MIncr] ->
      forall jpre s1, (jpre = true -> jp = true) -> s1 = Pf (recorded x (rc_an r)) x (rc_j r) jpre (rc_dxmax r) (rc_b r)
               (ps_res s ++ [(x, recorded x (rc_an r))]) (rc_out r) ->
      I (ps_j s1) (ps_dxmax s1) /\ (ps_jpre s1 = true -> jp = true) /\
      ps_res s1 = ps_res s ++ [(ps_x s1, ps_an s1)] /\
      exists ms, (forall m, In m ms -> m = MIncr \/ m = MRecycle) /\
      ((stop0 = false /\ ps_out s1 = ps_out s ++ ms /\
         (acc (ps_x s) (ps_an s) (ps_x s1) (ps_an s1) \/ skp (ps_x s) (ps_an s) (ps_x s1) (ps_an s1))) \/
       (stop0 = true /\ fld (ps_x s) (ps_an s) (ps_x s1) (ps_an s1) /\
         exists e, error_line e /\ ps_out s1 = ps_out s ++ ms ++ [e]))).
    { intros pre s0 r x stop0 Hrc Hi0 Hr0 Hnp0 Ho jpre s1 Hjp1 ->.
      eapply recycle_ok in Hrc; [|exact Hi0|exact Hr0|exact Hnp0].
      destruct Hrc as (Hir & ms & Hms & Hrc). cbn [ps_j ps_jpre ps_dxmax ps_res ps_x ps_an ps_out].
      split; [exact Hir|]. split; [exact Hjp1|]. split; [reflexivity|].
      exists (MIncr :: ms). split; [intros m [<-|Hm]; [left; reflexivity|right; auto]|].
      destruct Hrc as [(-> & Ha & Hout)|(-> & Ha & e & He & Hout)]; rewrite Hout, Ho, <- app_assoc;
        [left|right]; repeat split; try (left; assumption); try assumption.
      exists e. split; [exact He|]. reflexivity. }
    destruct (ps_jpre s && negb (cf_jfixed cfg)) eqn:Epre.
    - apply andb_prop in Epre. destruct Epre as [Ejp Ejf]. apply Hjp in Ejp. apply negb_true_iff in Ejf.
      apply bind_ok in H. destruct H as (p & Hp & H).
      eapply predict_ok in Hp; [|exact Hi|exact Hrefl].
      destruct Hp as (xmax & t & Hc & Han & Hrt & Hn & Hs).
      destruct (pr_success p) eqn:Es.
      + injection H as <- <-. cbn [ps_j ps_dxmax ps_res ps_x ps_an ps_out].
        split; [eapply (proj2 HI Ejf); exact Hi|]. split; [intros _; exact Ejp|]. split; [reflexivity|].
        exists [MIncr]. split; [intros m [<-|[]]; auto|]. left. repeat split. right.
        split; [exact Ejp|]. split; [exact Ejf|]. exists (ps_j s), (ps_dxmax s), xmax, (ps_an s), t.
        repeat match goal with |- _ /\ _ => split end; try assumption; try reflexivity; auto.
        rewrite Han. reflexivity.
      + apply bind_ok in H. destruct H as ([[r x] stop0] & Hrc & H). injection H as <- <-.
        eapply Hfin; [exact Hrc| | | |reflexivity| |reflexivity].
        * cbn. eapply (proj2 HI Ejf); exact Hi.
        * cbn. rewrite Han. exact Hrt.
        * cbn. rewrite Hn. lia.
        * intros _. exact Ejp.
    - apply bind_ok in H. destruct H as ([[r x] stop0] & Hrc & H). injection H as <- <-.
      eapply Hfin; [exact Hrc| | | |reflexivity| |reflexivity]; cbn; try assumption. lia.
  Qed.

  (** All increments. *)
  Lemma increments_ok fuel : forall k s s',
    increments solve argsortF g dg cfg dxmax0 fuel k s = Ok s' ->
    I (ps_j s) (ps_dxmax s) -> (ps_jpre s = true -> jp = true) ->
    I (ps_j s') (ps_dxmax s') /\
    exists recs ms,
      ps_res s' = ps_res s ++ recs /\ ps_out s' = ps_out s ++ ms /\
      (length recs <= k)%nat /\
      (ps_x s', ps_an s') = last recs (ps_x s, ps_an s) /\
      (forall x a, In (x, a) (removelast recs) -> beyond_limit cfg x = Ok false) /\
      ((good (ps_x s) (ps_an s) recs /\ (forall m, In m ms -> ~ error_line m) /\
        ((length recs < k)%nat -> recs <> [] /\ beyond_limit cfg (ps_x s') = Ok true)) \/
       (exists rs x a ms' e, recs = rs ++ [(x, a)] /\ good (ps_x s) (ps_an s) rs /\
          (let p := last rs (ps_x s, ps_an s) in fld (fst p) (snd p) x a) /\
          ms = ms' ++ [e] /\ error_line e /\ (forall m, In m ms' -> ~ error_line m))).
  Proof.
    assert (Hne : forall ms : list msg, (forall m, In m ms -> m = MIncr \/ m = MRecycle) ->
              forall m, In m ms -> ~ error_line m).
    { intros ms H m Hm [->| ->]; apply H in Hm; destruct Hm; discriminate. }
    induction k as [|k IH]; intros s s' H Hi Hjp; cbn [increments] in H.
    - injection H as <-. split; [exact Hi|]. exists [], []. rewrite !app_nil_r.
      repeat split; try reflexivity; [intros x a []|].
      left. repeat split; [constructor|intros m []|cbn in *; lia|cbn in *; lia].
    - apply bind_ok in H. destruct H as ([s1 stop] & H1 & H).
      apply increment_ok in H1; [|exact Hi|exact Hjp].
      destruct H1 as (Hi1 & Hjp1 & Hres & ms & Hms & H1).
      destruct H1 as [(-> & Hout & Hgd)|(-> & Hfl & e & He & Hout)].
      2:{ injection H as <-. split; [exact Hi1|].
          exists [(ps_x s1, ps_an s1)], (ms ++ [e]). cbn [length last removelast].
          repeat match goal with |- _ /\ _ => split end; try assumption; try reflexivity; try lia; [intros x a []|].
          right. exists [], (ps_x s1), (ps_an s1), ms, e.
          repeat match goal with |- _ /\ _ => split end; try assumption; try reflexivity; [constructor|].
          apply Hne, Hms. }
      apply bind_ok in H. destruct H as (lim & Hlim & H).
      destruct lim.
      + injection H as <-. cbn [ps_j ps_dxmax ps_res ps_x ps_an ps_out]. split; [exact Hi1|].
        exists [(ps_x s1, ps_an s1)], (ms ++ [MExit1]). cbn [length last removelast].
        rewrite Hout, <- app_assoc.
        repeat match goal with |- _ /\ _ => split end; try assumption; try reflexivity; try lia; [intros x a []|].
        left. repeat split; [constructor; [exact Hgd|constructor]| |discriminate|exact Hlim].
        intros m Hm. apply in_app_or in Hm. destruct Hm as [Hm|[<-|[]]]; [eapply Hne; eauto|].
        intros [C|C]; discriminate.
      + apply IH in H; [|exact Hi1|exact Hjp1]. destruct H as (Hi' & recs & ms2 & Hr2 & Ho2 & Hl2 & Hla & Hrm & H).
        split; [exact Hi'|]. exists ((ps_x s1, ps_an s1) :: recs), (ms ++ ms2).
        rewrite Hr2, Ho2, Hres, Hout, <- !app_assoc. cbn [length].
        repeat match goal with |- _ /\ _ => split end; try reflexivity; try lia.
        * rewrite Hla. destruct recs as [|p recs]; [reflexivity|]. clear.
          cbn [last]. revert p. induction recs as [|q recs IH]; intros p; [reflexivity|]. cbn [last] in *. apply IH.
        * intros x a Hin. destruct recs as [|p recs]; [destruct Hin|].
          change (removelast ((ps_x s1, ps_an s1) :: p :: recs))
            with ((ps_x s1, ps_an s1) :: removelast (p :: recs)) in Hin.
          destruct Hin as [E|Hin]; [injection E as <- <-; exact Hlim|eauto].
        * destruct H as [(Hg & Hm & Hlt)|(rs & x & a & ms' & e & -> & Hg & Hf & -> & He & Hm)].
          -- left. repeat split.
             ++ constructor; assumption.
             ++ intros m Hin. apply in_app_or in Hin. destruct Hin; [eapply Hne; eauto|auto].
             ++ discriminate.
             ++ apply Hlt. lia.
          -- right. exists ((ps_x s1, ps_an s1) :: rs), x, a, (ms ++ ms'), e.
             repeat match goal with |- _ /\ _ => split end; try assumption; try reflexivity.
             ++ constructor; assumption.
             ++ cbv zeta in *. replace (last ((ps_x s1, ps_an s1) :: rs) (ps_x s, ps_an s))
                  with (last rs (ps_x s1, ps_an s1)); [exact Hf|].
                destruct rs as [|p rs]; [reflexivity|]. clear.
                cbn [last]. revert p. induction rs as [|q rs IH]; intros p; [reflexivity|]. cbn [last] in *. apply IH.
             ++ now rewrite <- app_assoc.
             ++ intros m Hin. apply in_app_or in Hin. destruct Hin; [eapply Hne; eauto|auto].
  Qed.

  Definition first_j (n : nat) (j : option Z) : Z :=
    if cf_jfixed cfg then match j with Some j => j | None => 0%Z end else Z.of_nat n.

  (** pathfollow *)
  Lemma pathfollow_ok Ured an d j jpre fuel s :
    dxmax0 = expand_dxmax (length (Ured ++ [f0])) d ->
    pathfollow solve argsortF g dg Ured an d j jpre cfg fuel = Ok s ->
    (I (first_j (length (Ured ++ [f0])) j) dxmax0) -> (jpre = true -> jp = true) ->
    let x := Ured ++ [f0] in
    exists recs,
      ps_res s = (x, an) :: recs /\
      (length recs <= Z.to_nat (cf_incs cfg))%nat /\
      (ps_x s, ps_an s) = last recs (x, an) /\
      (forall x' a, In (x', a) (removelast recs) -> beyond_limit cfg x' = Ok false) /\
      ((good x an recs /\ (forall m, In m (ps_out s) -> ~ error_line m) /\
        ((length recs < Z.to_nat (cf_incs cfg))%nat -> recs <> [] /\ beyond_limit cfg (ps_x s) = Ok true)) \/
       (exists rs x' a ms' e, recs = rs ++ [(x', a)] /\ good x an rs /\
          (let p := last rs (x, an) in fld (fst p) (snd p) x' a) /\
          ps_out s = ms' ++ [e] /\ error_line e /\ (forall m, In m ms' -> ~ error_line m))).
  Proof.
    intros Hd H Hi Hjp x. unfold pathfollow in H. cbv zeta in H. fold x in H, Hi, Hd. rewrite <- Hd in H.
    unfold first_j in Hi.
    assert (Hgen : forall j0, I j0 dxmax0 ->
      increments solve argsortF g dg cfg dxmax0 fuel (Z.to_nat (cf_incs cfg))
        (Pf an x j0 jpre dxmax0 4 [(x, an)] []) = Ok s ->
      exists recs,
      ps_res s = (x, an) :: recs /\
      (length recs <= Z.to_nat (cf_incs cfg))%nat /\
      (ps_x s, ps_an s) = last recs (x, an) /\
      (forall x' a, In (x', a) (removelast recs) -> beyond_limit cfg x' = Ok false) /\
      ((good x an recs /\ (forall m, In m (ps_out s) -> ~ error_line m) /\
        ((length recs < Z.to_nat (cf_incs cfg))%nat -> recs <> [] /\ beyond_limit cfg (ps_x s) = Ok true)) \/
       (exists rs x' a ms' e, recs = rs ++ [(x', a)] /\ good x an rs /\
          (let p := last rs (x, an) in fld (fst p) (snd p) x' a) /\
          ps_out s = ms' ++ [e] /\ error_line e /\ (forall m, In m ms' -> ~ error_line m)))).
    { intros j0 Hi0 Hin. apply increments_ok in Hin; [|exact Hi0|exact Hjp].
      destruct Hin as (_ & recs & ms & Hr & Ho & Hl & Hla & Hrm & Hc).
      cbn [ps_res ps_out ps_x ps_an app] in *. rewrite <- Ho in Hc. exists recs.
      repeat match goal with |- _ /\ _ => split end; assumption. }
    destruct (cf_jfixed cfg) eqn:Ejf; cbn [negb] in H.
    - destruct j as [j|].
      + eapply Hgen; eassumption.
      + destruct (Z.leb_spec (cf_incs cfg) 0); [|discriminate]. injection H as <-.
        exists []. cbn [ps_res ps_out ps_x ps_an length last removelast]. repeat match goal with |- _ /\ _ => split end; try reflexivity; try lia; [intros ? ? []|].
        left. repeat split; [constructor|intros m []|lia|lia].
    - eapply Hgen; eassumption.
  Qed.
End Path.

Section Public.
  Context {F : Type} `{NF : Num F}.
  Variable solve : list (list F) -> list F -> list F.
  Variable argsortF : list F -> list nat.
  Variables (g : gfun F) (dg : kfun F) (cfg : pfcfg F) (dxmax0 : list F).
  Variable I : Z -> list F -> Prop.
  Variable R : analysis F -> analysis F -> Prop.
  Variable jp : bool.

  Lemma acc_accepted x0 an0 x an' :
    acc solve g dg cfg I R x0 an0 x an' -> accepted solve g dg cfg I x0 x an'.
  Proof.
    intros (j & dxmax & xmax & xs & nfev & an & ts & t & an2 & v & Hi & Hnf & _ & _ & Hc & Hcv & Hx & _ & Hw & Hf & He).
    exists j, dxmax, xmax, xs, nfev, an, ts, t, an2, v. auto 10.
  Qed.

  Lemma skp_skipped x0 an0 x an' :
    skp solve g dg cfg I R jp x0 an0 x an' -> skipped solve g dg cfg I jp x0 x an'.
  Proof.
    intros (Hp & Hj & j & dxmax & xmax & an & t & Hi & _ & _ & Hc & Hcv & Hx & He).
    split; [exact Hp|]. split; [exact Hj|]. exists j, dxmax, xmax, an, t. auto 10.
  Qed.

  Lemma fld_failed x0 an0 x an' :
    fld solve g dg cfg I R x0 an0 x an' -> failed solve g dg cfg I x0 x an'.
  Proof.
    intros (j & dxmax & xmax & xs & nfev & an & ts & t & Hi & Hnf & _ & _ & Hc & Hx & _ & He & Hw).
    exists j, dxmax, xmax, xs, nfev, an, ts, t. auto 10.
  Qed.

  Lemma good_good x0 an0 recs :
    good solve g dg cfg I R jp x0 an0 recs -> good_records solve g dg cfg I jp x0 recs.
  Proof.
    induction 1 as [|x0 an0 x an' rest [H|H] _ IH]; constructor; try exact IH; [left|right].
    - eapply acc_accepted; eassumption.
    - eapply skp_skipped; eassumption.
  Qed.
End Public.

Lemma last_map_fst {A B} (l : list (A * B)) d : last (map fst l) (fst d) = fst (last l d).
Proof.
  destruct l as [|p l]; [reflexivity|]. revert p. induction l as [|q l IH]; intros p; [reflexivity|].
  cbn [map last] in *. apply IH.
Qed.

Lemma pathfollow_records F (NF : Num F) solve argsortF g dg cfg (I : Z -> list F -> Prop)
    Ured an d j jpre fuel s :
  let x := Ured ++ [f0] in
  let dxmax0 := expand_dxmax (length x) d in
  keeps_I solve argsortF g dg cfg dxmax0 I ->
  I (first_j cfg (length x) j) dxmax0 ->
  pathfollow solve argsortF g dg Ured an d j jpre cfg fuel = Ok s ->
  exists recs, ps_res s = (x, an) :: recs /\ records_ok solve g dg cfg I jpre x recs (ps_out s).
Proof.
  intros x dxmax0 HI Hi H.
  eapply (pathfollow_ok solve argsortF g dg cfg dxmax0 I (fun _ _ => True) jpre) in H;
    [|exact HI|unfold quiet; auto 10|reflexivity|exact Hi|auto].
  destruct H as (recs & Hr & _ & _ & _ & [(Hg & Hm & _)|(rs & x' & a & ms & e & -> & Hg & Hf & Ho & He & Hm)]).
  - exists recs. split; [exact Hr|]. left. split; [|exact Hm]. eapply good_good; eassumption.
  - eexists. split; [exact Hr|]. right. exists rs, x', a, ms, e.
    repeat split; try assumption; [eapply good_good; eassumption|].
    cbv zeta in Hf. apply fld_failed in Hf.
    change x with (fst (x, an)). rewrite last_map_fst. exact Hf.
Qed.

Lemma keeps_True F (NF : Num F) solve argsortF g dg cfg d :
  keeps_I solve argsortF g dg cfg d (fun _ _ => True).
Proof. split; auto. Qed.
