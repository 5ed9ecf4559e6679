(** * Sessions of a truss and of the truss with bars split lengthwise *)
From Coq Require Import List ZArith Bool Arith Lia Reals Lra.
Import ListNotations.
From Verif Require Import Num NumR Vec Handlers Material Analysis Truss Equil Solver Run ListFacts SpecMech SpecMechR SpecBuild
  BuildFacts EquilFacts SpecState FrameFacts EvalFacts SpecRun ReachFacts SpecSame SimFacts SameFacts SameRun SimRun SpecSplit SplitFacts.
Local Open Scope R_scope.

Lemma picks_const {A} (x : A) own n k : (forall i, In i own -> i < n)%nat -> k = length own -> picks own (repeat x n) (repeat x k).
Proof. intros H ->. apply picks_repeat, H. Qed.

Lemma Forall2_nth {A B} {P : A -> B -> Prop} {l l'} : Forall2 P l l' ->
  forall k x y, nth_error l k = Some x -> nth_error l' k = Some y -> P x y.
Proof.
  induction 1 as [|x0 y0 l l' Hx H IH]; intros [|k] x y Ex Ey; try discriminate; cbn in *.
  - injection Ex as <-. injection Ey as <-. exact Hx.
  - eauto.
Qed.

Section Rel.
  Variables c c' : ctx R.
  Variables ms ms' : list (member R).
  Variable own : list nat.

  Lemma ssim_set : set_closed (SSim c c' ms ms' own).
  Proof.
    intros a a' ((E1 & E2 & E3 & E4 & E5 & E6 & E7 & E8 & E9 & E10 & E11 & E12 & E13 & E14 & E15 & E16 & E17 & E18 & P1 & P3 & P4 & N1 & N2) & Hsz & Hsz').
    pose proof Hsz as (S1 & S2 & S3 & S4 & S5 & S6 & S7 & S8 & S9 & S10 & S11 & S12).
    pose proof Hsz' as (T1 & T2 & T3 & T4 & T5 & T6 & T7 & T8 & T9 & T10 & T11 & T12).
    unfold SSim, core, sizes_ok.
    repeat match goal with |- _ /\ _ => split | |- forall _, _ => intro end; cbn -[map2]; auto.
    all: eauto.
  Qed.

  Lemma ssim_fld : fields_same (SSim c c' ms ms' own).
  Proof.
    intros a a' ((E1 & E2 & E3 & E4 & E5 & E6 & E7 & E8 & E9 & E10 & E11 & E12 & E13 & E14 & E15 & E16 & _) & _). auto.
  Qed.

  Lemma ssim_set_flip : set_closed (fun a' a => SSim c c' ms ms' own a a').
  Proof. intros a' a H. destruct (ssim_set _ _ H) as (H1 & H2 & H3 & H4 & H5 & H6 & H7 & H8 & H9 & H10 & H11). auto 20. Qed.

  Lemma ssim_fld_flip : fields_same (fun a' a => SSim c c' ms ms' own a a').
  Proof. intros a' a H. destruct (ssim_fld _ _ H) as (H1 & H2 & H3 & H4 & H5). auto. Qed.
End Rel.

Section Build.
  Variable argsortZ : list Z -> list nat.
  Hypothesis HA : argsort_ok argsortZ.

  Lemma build_other (m m' mb : model R) ns ms bs fs ns' ms' bs' fs' : same_but_bars m m' ->
    described m ns ms bs fs -> described m' ns' ms' bs' fs' ->
    build argsortZ m = Ok mb -> exists mb', build argsortZ m' = Ok mb'.
  Proof.
    intros (En & Eb & Ef & Es) _ (_ & _ & _ & (eh' & De' & _) & _) H. unfold build in *. rewrite En, Eb, Ef, Es, De'.
    destruct (m_nodes m) as [nh0|]; [|discriminate]. destruct (m_elems m) as [eh|]; [|discriminate]. cbv zeta in *.
    apply bind_ok in H. destruct H as (on & -> & H). cbn [bind]. destruct on as [nh|]; [|discriminate].
    apply bind_ok in H. destruct H as (ob & -> & H). cbn [bind].
    apply bind_ok in H. destruct H as (oe & -> & H). cbn [bind]. destruct ob as [bh|]; [|discriminate]. destruct oe as [fh|]; [|discriminate].
    apply bind_ok in H. destruct H as (c1 & -> & H). cbn [bind].
    apply bind_ok in H. destruct H as (c2 & -> & H). cbn [bind]. destruct (negb c2); [discriminate|].
    apply bind_ok in H. destruct H as (D0 & -> & H). cbn [bind].
    apply bind_ok in H. destruct H as (D1 & -> & H). cbn [bind].
    apply bind_ok in H. destruct H as (an & Han & H). unfold analysis_build in *.
    apply bind_ok in Han. destruct Han as (ur & -> & _). cbn [bind]. eexists. reflexivity.
  Qed.

  Lemma split_laws own (ms ms' : list (member R)) : split_by own ms ms' ->
    existsb (Z.eqb 2) (map (fun b => law_code (mb_law b)) ms') = existsb (Z.eqb 2) (map (fun b => law_code (mb_law b)) ms).
  Proof.
    intros [H1 H2]. apply Bool.eq_iff_eq_true. rewrite !existsb_exists. split; intros (z & Hz & E); apply in_map_iff in Hz; destruct Hz as (b & <- & Hb).
    - exists (law_code (mb_law b)). split; [|exact E]. apply In_nth_error in Hb. destruct Hb as (k & Hk).
      destruct (nth_error own k) as [i|] eqn:Ei.
      + destruct (Forall2_nth H1 _ _ _ Ei Hk) as (b0 & Hb0 & (_ & _ & -> & _)). apply in_map_iff. exists b0. split; [reflexivity|apply (nth_error_In _ _ Hb0)].
      + apply nth_error_None in Ei. assert (k < length ms')%nat by (apply nth_error_Some; congruence).
        apply Forall2_len in H1. lia.
    - exists (law_code (mb_law b)). split; [|exact E]. apply In_nth_error in Hb. destruct Hb as (i & Hi).
      destruct (H2 _ _ Hi) as [Hin _]. apply In_nth_error in Hin. destruct Hin as (k & Hk).
      destruct (nth_error ms' k) as [b'|] eqn:Eb'.
      + destruct (Forall2_nth H1 _ _ _ Hk Eb') as (b0 & Hb0 & (_ & _ & El & _)). assert (b0 = b) by congruence. subst b0.
        rewrite <- El. apply in_map_iff. exists b'. split; [reflexivity|apply (nth_error_In _ _ Eb')].
      + apply nth_error_None in Eb'. assert (k < length own)%nat by (apply nth_error_Some; congruence).
        apply Forall2_len in H1. lia.
  Qed.

  Lemma build_both (m m' mb mb' : model R) ns ms bs fs ns' ms' bs' fs' own : same_but_bars m m' ->
    described m ns ms bs fs -> described m' ns' ms' bs' fs' -> split_by own ms ms' ->
    build argsortZ m = Ok mb -> build argsortZ m' = Ok mb' ->
    exists c c', truss_ok c ms /\ truss_ok c' ms' /\ c_labels c' = c_labels c /\ c_coords c' = c_coords c /\
      c_ndof1 c' = c_ndof1 c /\ c_nstatev c' = c_nstatev c /\
      gmsim c c' (SSim c c' ms ms' own) mb mb' /\ gmsim c' c (fun a' a => SSim c c' ms ms' own a a') mb' mb.
  Proof.
    intros (En & Eb & Ef & Es) Hd Hd' Hsp H H'. pose proof H as HB. pose proof H' as HB'.
    pose proof Hd as (_ & _ & _ & (eh0 & De & Dms) & _). pose proof Hd' as (_ & _ & _ & (eh0' & De' & Dms') & _).
    apply build_inv in H. apply build_inv in H'.
    destruct H as (nh0 & eh & nh & bh & fh & D0 & D1 & an & E1 & E2 & Ef1 & Eb1 & Eo & C1 & C2 & Hd0 & Hd1 & Han & Em).
    destruct H' as (nh0' & eh' & nh' & bh' & fh' & D0' & D1' & an' & E1' & E2' & Ef1' & Eb1' & Eo' & C1' & C2' & Hd0' & Hd1' & Han' & Em').
    cbv zeta in *. rewrite En in E1'. rewrite Eb in *. rewrite Ef in *. rewrite Es in *.
    assert (nh0' = nh0) by congruence. subst nh0'. assert (nh' = nh) by congruence. subst nh'.
    assert (bh' = bh) by congruence. subst bh'. assert (fh' = fh) by congruence. subst fh'.
    assert (D0' = D0) by congruence. assert (D1' = D1) by congruence. subst D0' D1'.
    assert (eh0 = eh) by congruence. assert (eh0' = eh') by congruence. subst eh0 eh0'.
    pose proof (build_reached _ _ _ _ _ _ _ HA Hd HB) as (nhA & ehA & fhA & uA & nsA & A1 & A2 & A3 & A4 & _ & _ & _ & _ & Htr & _ & _ & _ & _ & _ & _ & _ & (Hsz & _)).
    pose proof (build_reached _ _ _ _ _ _ _ HA Hd' HB') as (nhB & ehB & fhB & uB & nsB & B1 & B2 & B3 & B4 & _ & _ & _ & _ & Htr' & _ & _ & _ & _ & _ & _ & _ & (Hsz' & _)).
    assert (Le : length (el_labels eh) = length ms) by (destruct Dms as (-> & _); apply map_length).
    assert (Le' : length (el_labels eh') = length ms') by (destruct Dms' as (-> & _); apply map_length).
    assert (Hmt : existsb (Z.eqb 2) (el_mtype eh') = existsb (Z.eqb 2) (el_mtype eh)).
    { destruct Dms as (_ & _ & -> & _), Dms' as (_ & _ & -> & _). eapply split_laws; eauto. }
    exists (ctx_of mb uA nhA ehA), (ctx_of mb' uB nhB ehB).
    rewrite Em in A1, A2, A3, A4. rewrite Em' in B1, B2, B3, B4. cbn [m_nodes m_elems m_forces m_built] in *.
    injection A1 as <-. injection A2 as <-. injection A3 as <-. injection A4 as <-.
    injection B1 as <-. injection B2 as <-. injection B3 as <-. injection B4 as <-.
    rewrite Le in Han. rewrite Le', Hmt in Han'.
    set (cc := ctx_of mb _ _ _) in *. set (cc' := ctx_of mb' _ _ _) in *. cbn [u_an] in *.
    assert (Hco : SSim cc cc' ms ms' own an an').
    { split; [|split; assumption]. clear Hsz Hsz'.
      unfold analysis_build in Han, Han'. apply bind_ok in Han. destruct Han as (ur & Hur & Han). rewrite Hur in Han'. cbn [bind] in Han'.
      injection Han as <-. injection Han' as <-.
      assert (Hlt : forall i, In i own -> (i < length ms)%nat).
      { intros i Hi. apply In_nth_error in Hi. destruct Hi as (k & Hk). destruct Hsp as [H1 _].
        destruct (nth_error ms' k) as [b'|] eqn:E.
        - destruct (Forall2_nth H1 _ _ _ Hk E) as (b & Hb & _). apply nth_error_Some. congruence.
        - apply nth_error_None in E. apply Forall2_len in H1. assert (k < length own)%nat by (apply nth_error_Some; congruence). lia. }
      assert (Hlen : length ms' = length own) by (destruct Hsp as [H1 _]; symmetry; eapply Forall2_len; exact H1).
      assert (Hz : forall l : list (member R), repeat 0 (length l) = map2 Rmult (map area l) (repeat 0 (length l))).
      { induction l as [|b l IH]; cbn; [reflexivity|]. rewrite <- IH, Rmult_0_r. reflexivity. }
      unfold core. cbn -[map2]. do 18 (split; [reflexivity|]). do 2 (split; [apply picks_const; assumption|]).
      split; [|split; apply Hz]. destruct (0 <? _)%Z; [|exact Logic.I]. apply picks_const; assumption. }
    pose proof (ssim_set cc cc' ms ms' own) as Hset.
    assert (HR : SSim cc cc' ms ms' own (set_lpf f0 (set_fconst (repeat (repeat f0 3) (length (n_labels nh0))) (set_forces (e_rows fh) an)))
                                (set_lpf f0 (set_fconst (repeat (repeat f0 3) (length (n_labels nh0))) (set_forces (e_rows fh) an')))).
    { apply (Hset (set_fconst _ _)), (Hset (set_forces _ _)), Hset, Hco. }
    split; [exact Htr|]. split; [exact Htr'|].
    subst cc cc'. subst mb mb'. unfold ctx_of at 1 2 3 4 5 6 7 8. cbn [c_labels c_coords c_ndof1 c_nstatev m_set].
    do 3 (split; [reflexivity|]). split; [cbn; rewrite Hmt; reflexivity|].
    split; (split; [cbn; rewrite Hmt; reflexivity|]; do 8 eexists; cbn [m_built m_nodes m_elems m_forces];
        do 8 (split; [reflexivity|]); split; [reflexivity|]; do 2 (split; [reflexivity|]);
        cbn [u_an u_R u_lpf_end]; split; [exact Hco|]; split; [constructor; [exact HR|constructor]|]; auto).
  Qed.

  Variable argsortF : list R -> list nat.
  Variable solve : list (list R) -> list R -> list R.

  Lemma gmsim_results c c' ms ms' own m m' : truss_ok c ms -> truss_ok c' ms' -> split_by own ms ms' ->
    gmsim c c' (SSim c c' ms ms' own) m m' -> split_results own ms' m m'.
  Proof.
    intros Hok Hok' Hsp (_ & u & u' & nh & nh' & eh & eh' & fh & fh' & Eu & Eu' & _ & _ & _ & _ & _ & _ & _ & _ & _ & HS & HR & HL & _).
    exists u, u'. split; [exact Eu|]. split; [exact Eu'|]. split; [|split; [exact HL|]].
    - clear - HR Hsp. induction HR; constructor; auto. eapply result_of; [exact Hsp|eassumption].
    - eapply result_of; [exact Hsp|exact HS].
  Qed.

  Lemma gmsim_flip c c' ms ms' own m m' : gmsim c' c (fun a' a => SSim c c' ms ms' own a a') m' m -> gmsim c c' (SSim c c' ms ms' own) m m'.
  Proof.
    intros (E & u & u' & nh & nh' & eh & eh' & fh & fh' & Eu & Eu' & En & En' & Ee & Ee' & Ef & Ef' & Er & Ec & Ec' & HS & HR & HL & HN & HN1).
    split; [auto|]. exists u', u, nh', nh, eh', eh, fh', fh. do 8 (split; [assumption|]). split; [auto|]. split; [exact Ec'|]. split; [exact Ec|].
    split; [exact HS|]. split; [|auto]. clear - HR. induction HR; constructor; auto.
  Qed.

  Lemma split_play (m m' m1 : model R) ns ms bs fs ns' ms' bs' fs' own acts out : same_but_bars m m' ->
    described m ns ms bs fs -> described m' ns' ms' bs' fs' -> split_by own ms ms' ->
    build_and_play argsortF solve argsortZ m acts = Ok (m1, out) ->
    exists m1', build_and_play argsortF solve argsortZ m' acts = Ok (m1', out) /\ split_results own ms' m1 m1'.
  Proof.
    intros Hs Hd Hd' Hsp H. unfold build_and_play in *. apply bind_ok in H. destruct H as (mb & Hb & H).
    destruct (build_other _ _ _ _ _ _ _ _ _ _ _ Hs Hd Hd' Hb) as (mb' & Hb').
    destruct (build_both _ _ _ _ _ _ _ _ _ _ _ _ _ Hs Hd Hd' Hsp Hb Hb') as (c & c' & Hok & Hok' & E1 & E2 & E3 & E4 & HM & _).
    rewrite Hb'. cbn [bind].
    destruct (gplay_sim argsortF solve c c' (SSim c c' ms ms' own) (ssim_set _ _ _ _ _) (ssim_fld _ _ _ _ _)) with (acts := acts) (m := mb) (m' := mb') (m1 := m1) (out := out) as (m1' & H' & HM').
    - intros V V0 w a a' b x HS He. eapply equilibrium_fwd; eassumption.
    - intros V a a' b x HS He. eapply stiffness_fwd; eassumption.
    - exact HM.
    - exact H.
    - exists m1'. split; [exact H'|]. eapply (gmsim_results c c' ms ms'); eassumption.
  Qed.

  Lemma merged_play (m m' m1' : model R) ns ms bs fs ns' ms' bs' fs' own acts out : same_but_bars m m' ->
    described m ns ms bs fs -> described m' ns' ms' bs' fs' -> split_by own ms ms' ->
    build_and_play argsortF solve argsortZ m' acts = Ok (m1', out) ->
    exists m1, build_and_play argsortF solve argsortZ m acts = Ok (m1, out) /\ split_results own ms' m1 m1'.
  Proof.
    intros Hs Hd Hd' Hsp H. unfold build_and_play in *. apply bind_ok in H. destruct H as (mb' & Hb' & H).
    assert (Hs' : same_but_bars m' m) by (destruct Hs as (A1 & A2 & A3 & A4); repeat split; auto).
    destruct (build_other _ _ _ _ _ _ _ _ _ _ _ Hs' Hd' Hd Hb') as (mb & Hb).
    destruct (build_both _ _ _ _ _ _ _ _ _ _ _ _ _ Hs Hd Hd' Hsp Hb Hb') as (c & c' & Hok & Hok' & E1 & E2 & E3 & E4 & _ & HM).
    rewrite Hb. cbn [bind].
    destruct (gplay_sim argsortF solve c' c (fun a' a => SSim c c' ms ms' own a a') (ssim_set_flip _ _ _ _ _) (ssim_fld_flip _ _ _ _ _)) with (acts := acts) (m := mb') (m' := mb) (m1 := m1') (out := out) as (m1 & H1 & HM').
    - intros V V0 w a a' b x HS He. eapply equilibrium_bwd; eassumption.
    - intros V a a' b x HS He. eapply stiffness_bwd; eassumption.
    - exact HM.
    - exact H.
    - exists m1. split; [exact H1|]. apply gmsim_flip in HM'. eapply (gmsim_results c c' ms ms'); eassumption.
  Qed.
End Build.
