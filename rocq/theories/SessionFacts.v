(** * Invariants of build followed by runs *)
From Coq Require Import List ZArith Bool Arith Lia Permutation Sorting.Sorted.
Import ListNotations.
From Verif Require Import Num Vec Handlers Material Analysis Truss Equil Solver Run ListFacts SpecMech SpecBuild
  BuildFacts BuildProps EditFacts EquilFacts SpecState FrameFacts EvalFacts SpecSolver SolverFacts PathFacts SpecRun RunFacts RecFacts ReachFacts.

Section Session.
  Context {F : Type} `{NF : Num F}.
  Variable argsortZ : list Z -> list nat.
  Variable argsortF : list F -> list nat.
  Variable solve : list (list F) -> list F -> list F.
  Implicit Types (c : ctx F) (a : analysis F).

  (** Context, DOF lists and tables are those of the built model. *)
  Definition sound (ms : list (member F)) (mb m1 : model F) : Prop :=
    m_nodes m1 = m_nodes mb /\ m_elems m1 = m_elems mb /\ m_bounds m1 = m_bounds mb /\
    m_forces m1 = m_forces mb /\ s_nstatev (m_set m1) = s_nstatev (m_set mb) /\
    exists nh eh ub u, m_nodes mb = Some nh /\ m_elems mb = Some eh /\
      m_built mb = Some ub /\ m_built m1 = Some u /\
      u_nnodes u = u_nnodes ub /\ u_ndof1 u = u_ndof1 ub /\
      let c := ctx_of mb ub nh eh in
      let D0 := a_DOF0 (u_an ub) in let D1 := a_DOF1 (u_an ub) in
      ctx_of m1 u nh eh = c /\ truss_ok c ms /\ c_ndof1 c = length D1 /\ NoDup D1 /\
      reached c ms D0 D1 (u_an u) /\ reached_len c (u_an u) /\
      (forall a, In a (u_R u) -> reached c ms D0 D1 a /\ reached_len c a).

  Lemma sound_build m mb ns ms bs fs :
    argsort_ok argsortZ -> described m ns ms bs fs -> build argsortZ m = Ok mb -> sound ms mb mb.
  Proof.
    intros HA Hd H. destruct (build_reached _ _ _ _ _ _ _ HA Hd H)
      as (nh & eh & fh & u & ns' & En & Ee & Ef & Eu & _ & _ & _ & _ & Htr & (r0 & HR & HUr0 & Hr0) & _ & _ & _ & _ & _ & HUr & Hre).
    unfold sound. do 5 (split; [reflexivity|]). exists nh, eh, u, u.
    do 6 (split; [first [assumption|reflexivity]|]). cbv zeta. split; [reflexivity|]. split; [exact Htr|].
    pose proof Hre as ((_ & _ & _ & _ & _ & _ & _ & _ & Hnd & _ & Hn1 & _) & _).
    split; [exact Hn1|]. split; [exact Hnd|]. split; [exact Hre|].
    split; [intros _; rewrite HUr; apply repeat_length|].
    rewrite HR. intros a [<-|[]]. split; [exact Hr0|]. intros _. rewrite HUr0. apply repeat_length.
  Qed.

  (** The steps of a run of a sound model. *)
  Lemma run_logs ms mb m1 fuel m2 out :
    sound ms mb m1 -> run argsortF solve m1 fuel = Ok (m2, out) ->
    exists nh eh ub u fh r0 rest u',
      m_nodes mb = Some nh /\ m_elems mb = Some eh /\ m_built mb = Some ub /\ m_built m1 = Some u /\
      m_forces m1 = Some fh /\ u_R u = r0 :: rest /\ m_built m2 = Some u' /\
      m2 = Model (m_nodes m1) (m_elems m1) (m_bounds m1) (m_forces m1) (m_set m1) (Some u') /\
      u_nnodes u' = u_nnodes u /\ u_ndof1 u' = u_ndof1 u /\
      let c := ctx_of mb ub nh eh in
      if (s_nsteps (m_set m1) <=? 0)%Z
      then u_R u' = r0 :: u_R u /\ u_lpf_end u' = u_lpf_end u /\ out = [] /\
           u_an u' = set_lpf f0 (set_Vred (a_Ured (u_an u) ++ [f0]) (u_an u))
      else exists logs, length logs = Z.to_nat (s_nsteps (m_set m1)) /\
        steps_from argsortF solve c (m_set m1) (e_rows fh) fuel 0
          (set_lpf f0 (set_Vred (a_Ured (u_an u) ++ [f0]) (u_an u))) (u_lpf_end u)
          (a_lpf (last (u_R u) r0)) logs /\
        u_R u' = r0 :: removelast (u_R u) ++ concat (map lg_results logs) /\
        u_lpf_end u' = u_lpf_end u ++ ends (a_lpf (last (u_R u) r0)) logs /\
        out = concat (map lg_out logs) /\
        (forall d, u_an u' = lg_final (last logs d)) /\
        (forall lg, In lg logs -> good_log c ms (a_DOF0 (u_an ub)) (a_DOF1 (u_an ub)) lg).
  Proof.
    intros (S1 & S2 & S3 & S4 & S5 & nh & eh & ub & u & En & Ee & Eub & Eu & U1 & U2 & HH) H. cbv zeta in HH.
    destruct HH as (Ec & Htr & Hn1 & Hnd & Hre & Hlen & HR).
    pose proof H as H0. apply run_ok in H0.
    destruct H0 as (u1 & nh1 & eh1 & fh & r0 & rest & u' & A1 & A2 & A3 & A4 & A5 & -> & A7 & A8 & HH).
    assert (u1 = u) by congruence. assert (nh1 = nh) by congruence. assert (eh1 = eh) by congruence. subst u1 nh1 eh1.
    exists nh, eh, ub, u, fh, r0, rest, u'. cbn [m_built].
    repeat match goal with |- _ = _ /\ _ => split; [first [assumption|reflexivity]|] end. cbv zeta.
    destruct (Z.leb_spec (s_nsteps (m_set m1)) 0) as [L|L].
    - destruct HH as (B1 & B2 & B3). repeat split; try assumption.
      unfold run in H. cbv zeta in H. rewrite A1, A2, A3, A4, A5 in H.
      replace (Z.to_nat (s_nsteps (m_set m1))) with 0 in H by lia. cbn [foldM seq bind] in H.
      repeat match type of H with (if ?b then _ else _) = _ => destruct b; [discriminate|] end.
      injection H as H _. rewrite <- H. reflexivity.
    - destruct HH as (logs & B1 & B2 & B3 & B4 & B5 & B6). exists logs. rewrite Ec in B2.
      repeat match goal with |- _ /\ _ => split end; try assumption.
      eapply steps_good; [exact Htr| | |exact B2].
      + eapply reached_setup; [exact Hre|..]; reflexivity.
      + exact Hlen.
  Qed.

  Lemma sound_run ms mb m1 fuel m2 out :
    sound ms mb m1 -> run argsortF solve m1 fuel = Ok (m2, out) -> sound ms mb m2.
  Proof.
    intros S H. destruct (run_logs _ _ _ _ _ _ S H)
      as (nh & eh & ub & u & fh & r0 & rest & u' & En & Ee & Eub & Eu & Ef & ER & Eu' & Em & N1 & N2 & HH).
    cbv zeta in HH.
    destruct S as (S1 & S2 & S3 & S4 & S5 & nh1 & eh1 & ub1 & u1 & En1 & Ee1 & Eub1 & Eu1 & U1 & U2 & G). cbv zeta in G.
    assert (nh1 = nh) by congruence. assert (eh1 = eh) by congruence. assert (u1 = u) by congruence.
    assert (ub1 = ub) by congruence. subst nh1 eh1 u1 ub1.
    destruct G as (Ec & Htr & Hn1 & Hnd & Hre & Hlen & HR).
    subst m2. unfold sound. cbn [m_nodes m_elems m_bounds m_forces m_set m_built].
    do 5 (split; [assumption|]). exists nh, eh, ub, u'.
    do 3 (split; [assumption|]). split; [reflexivity|]. split; [congruence|]. split; [congruence|]. cbv zeta.
    split. { rewrite <- Ec. unfold ctx_of. cbn [m_set]. rewrite N1, N2. reflexivity. }
    split; [exact Htr|]. split; [exact Hn1|]. split; [exact Hnd|].
    destruct (s_nsteps (m_set m1) <=? 0)%Z eqn:L.
    - destruct HH as (B1 & _ & _ & ->). split; [eapply reached_setup; [exact Hre|..]; reflexivity|].
      split; [exact Hlen|]. rewrite B1. intros a [<-|Hin]; apply HR; [rewrite ER; left; reflexivity|exact Hin].
    - destruct HH as (logs & B1 & B2 & B3 & B4 & B5 & B6 & B7).
      apply Z.leb_gt in L. destruct logs as [|l0 logs]; [cbn in B1; lia|].
      assert (Hl : good_log (ctx_of mb ub nh eh) ms (a_DOF0 (u_an ub)) (a_DOF1 (u_an ub)) (last (l0 :: logs) l0)).
      { apply B7. destruct (exists_last (l := l0 :: logs)) as (q & z & ->); [discriminate|].
        rewrite last_last. apply in_app_iff. right. left. reflexivity. }
      rewrite (B6 l0). split; [apply Hl|]. split; [apply Hl|].
      rewrite B3. intros a [<-|Hin]; [apply HR; rewrite ER; left; reflexivity|].
      apply in_app_iff in Hin. destruct Hin as [Hin|Hin].
      + apply HR. rewrite ER in *. clear - Hin. revert r0 Hin. induction rest as [|y rest IH]; intros r0 Hin; [contradiction|].
        cbn [removelast] in Hin. destruct Hin as [<-|Hin]; [left; reflexivity|right; apply IH, Hin].
      + apply in_concat in Hin. destruct Hin as (rs & Hrs & Hin). apply in_map_iff in Hrs.
        destruct Hrs as (lg & <- & Hlg). unfold lg_results in Hin. apply in_map_iff in Hin.
        destruct Hin as ([x a'] & <- & Hx). apply (B7 _ Hlg) in Hx. exact Hx.
  Qed.

  Lemma sound_session P m ns ms bs fs m1 :
    argsort_ok argsortZ -> described m ns ms bs fs -> session argsortF solve argsortZ P m m1 ->
    exists mb, build argsortZ m = Ok mb /\ sound ms mb m1.
  Proof.
    intros HA Hd S. induction S as [m' H|m1 fuel m2 out S IH HP H|m1 st S IH E].
    - exists m'. split; [exact H|]. eapply sound_build; eassumption.
    - destruct IH as (mb & Hb & Hs). exists mb. split; [exact Hb|]. eapply sound_run; eassumption.
    - destruct IH as (mb & Hb & Hs). exists mb. split; [exact Hb|].
      destruct Hs as (S1 & S2 & S3 & S4 & S5 & nh & eh & ub & u & En & Ee & Eub & Eu & U1 & U2 & G).
      unfold sound, with_settings. cbn [m_nodes m_elems m_bounds m_forces m_set m_built].
      do 4 (split; [assumption|]). split; [congruence|].
      exists nh, eh, ub, u. do 6 (split; [assumption|]). cbv zeta in *. split; [|apply G].
      rewrite <- (proj1 G). unfold ctx_of. cbn [m_set]. rewrite E. reflexivity.
  Qed.

  (** ** Active part of the recorded fields *)



  Lemma along_In (P : list F -> analysis F -> Prop) recs : forall x0 a0,
    along (fun _ _ x a => P x a) x0 a0 recs -> forall x a, In (x, a) recs -> P x a.
  Proof.
    induction recs as [|[y b] recs IH]; intros x0 a0 H x a Hin; [contradiction|]. cbn [along] in H.
    destruct H as [Hq H]. destruct Hin as [E|Hin]; [injection E as <- <-; exact Hq|]. exact (IH _ _ H _ _ Hin).
  Qed.

  Lemma log_active c ms D0 D1 st fuel k lg : no_predictor st ->
    truss_ok c ms -> 1 <= c_ndof1 c -> good_log c ms D0 D1 lg -> step_ran argsortF solve c st fuel k lg ->
    forall x a, In (x, a) (lg_recs lg) -> active a.
  Proof.
    intros Hnp Hok H1 (Hr & Hl & Hrecs & _) H. apply step_any in H. destruct H as (incs & xl & H).
    eapply (along_impl _ (fun _ _ _ a => active a)
      (fun x a => reached c ms D0 D1 a /\ length x = S (c_ndof1 c))) in H.
    - destruct H as (H & _). intros x a. exact (along_In (fun _ a => active a) _ _ _ H x a).
    - split; [exact Hr|]. rewrite app_length, (Hl H1). cbn. lia.
    - intros x0 a0 x a (Hr0 & Hx0) Hk. split.
      + split; [eapply reached_kind; eassumption|]. rewrite (kany_length _ _ _ _ _ _ _ _ Hk); lia.
      + destruct Hr0 as ((_ & _ & _ & _ & _ & _ & _ & _ & Hnd & _ & Hn1 & _) & _).
        eapply kany_active; try eassumption.
        destruct Hk as [Hk|[Hk|Hk]]; [left; exact Hk| |right; exact Hk].
        destruct Hk as (Hj & Hf & _). cbn in Hf. destruct Hnp; congruence.
  Qed.

  Lemma session_active m ns ms bs fs m1 :
    argsort_ok argsortZ -> described m ns ms bs fs ->
    session argsortF solve argsortZ no_predictor m m1 ->
    exists u, m_built m1 = Some u /\
      (1 <= u_ndof1 u -> active (u_an u) /\ forall a, In a (u_R u) -> active a).
  Proof.
    intros HA Hd S. induction S as [m' H|m1 fuel m2 out S IH HP H|m1 st S IH E].
    - destruct (build_reached _ _ _ _ _ _ _ HA Hd H)
        as (nh & eh & fh & u & ns' & En & Ee & Ef & Eu & _ & _ & _ & _ & Htr & (r0 & HR & HUr0 & Hr0) & _ & _ & HU & _ & _ & HUr & Hre).
      exists u. split; [exact Eu|]. intros H1.
      assert (G : forall a, reached (ctx_of m' u nh eh) ms (a_DOF0 (u_an u)) (a_DOF1 (u_an u)) a ->
        a_U a = zeros3 (length ns) -> a_Ured a = repeat f0 (u_ndof1 u) -> active a).
      { intros a ((L1 & _ & _ & _ & _ & _ & _ & _ & _ & Hlt & Hn1 & _) & _ & HD & _) HUa HUra. unfold active. rewrite HUa, HUra, vflat_zeros.
        apply gather_map. apply nth_error_ext. intros i. rewrite !nth_error_map.
        cbn [c_ndof1 ctx_of] in Hn1. rewrite Hn1.
        destruct (nth_error (a_DOF1 a) i) as [k|] eqn:E; cbn [option_map].
        - assert (Hi : i < length (a_DOF1 a)) by (apply nth_error_Some; congruence).
          assert (Hk : k < 3 * length ns).
          { apply nth_error_In, Hlt in E. rewrite HUa in L1. unfold zeros3 in L1. rewrite repeat_length in L1. lia. }
          rewrite !nth_rep by assumption. reflexivity.
        - apply nth_error_None in E. rewrite (proj2 (nth_error_None (repeat f0 (length (a_DOF1 a))) i)) by (rewrite repeat_length; exact E). reflexivity. }
      split; [apply G; assumption|]. rewrite HR. intros a [<-|[]]. apply G; auto.
      assert (EU : a_U r0 = a_U (u_an u)).
      { clear - H HR Eu. destruct (build_inv _ _ _ H) as (nh0 & eh & nh & bh & fh & D0 & D1 & an & E1 & E2 & Ef & Eb & Eo & C1 & C2 & Hd0 & Hd1 & Han & Em).
        cbv zeta in Em. subst m'. cbn in Eu. injection Eu as <-. cbn in HR. injection HR as <-. reflexivity. }
      congruence.
    - destruct (sound_session _ _ _ _ _ _ _ HA Hd S) as (mb & Hb & Hs).
      destruct (run_logs _ _ _ _ _ _ Hs H)
        as (nh & eh & ub & u & fh & r0 & rest & u' & En & Ee & Eub & Eu & Ef & ER & Eu' & Em & N1 & N2 & HH).
      cbv zeta in HH. destruct IH as (u1 & Eu1 & IH). assert (u1 = u) by congruence. subst u1.
      exists u'. split; [exact Eu'|]. intros H1. rewrite N2 in H1. specialize (IH H1). destruct IH as [IHa IHR].
      destruct (s_nsteps (m_set m1) <=? 0)%Z eqn:L.
      + destruct HH as (B1 & _ & _ & ->). split; [exact IHa|]. rewrite B1.
        intros a [<-|Hin]; apply IHR; [rewrite ER; left; reflexivity|exact Hin].
      + destruct HH as (logs & B1 & B2 & B3 & B4 & B5 & B6 & B7).
        destruct Hs as (S1 & S2 & S3 & S4 & S5 & nh1 & eh1 & ub1 & u1 & En1 & Ee1 & Eub1 & Eu1' & U1 & U2 & G). cbv zeta in G.
        assert (nh1 = nh) by congruence. assert (eh1 = eh) by congruence. assert (u1 = u) by congruence.
        assert (ub1 = ub) by congruence. subst nh1 eh1 u1 ub1. destruct G as (Ec & Htr & _).
        assert (H1' : 1 <= c_ndof1 (ctx_of mb ub nh eh)) by (rewrite <- Ec; exact H1).
        assert (Hact : forall lg, In lg logs -> forall x a, In (x, a) (lg_recs lg) -> active a).
        { clear - B2 B7 HP Htr H1'. revert B2 B7.
          generalize 0 at 1, (set_lpf f0 (set_Vred (a_Ured (u_an u) ++ [f0]) (u_an u))), (u_lpf_end u), (a_lpf (last (u_R u) r0)).
          induction logs as [|l logs IH]; intros k prev lpfs pl B2 B7 lg Hin; [contradiction|].
          cbn [steps_from] in B2. destruct B2 as (_ & Hran & Hrest).
          destruct Hin as [<-|Hin]; [|eapply IH; [exact Hrest|intros; apply B7; right; assumption|exact Hin]].
          eapply log_active; [exact HP|exact Htr|exact H1'|apply B7; left; reflexivity|exact Hran]. }
        split.
        * (* the object in force is the last record or has kept the fields of the start *)
          apply Z.leb_gt in L. 
          assert (Gl : forall logs k prev lpfs pl, logs <> [] -> active prev ->
             steps_from argsortF solve (ctx_of mb ub nh eh) (m_set m1) (e_rows fh) fuel k prev lpfs pl logs ->
             (forall lg, In lg logs -> forall x a, In (x, a) (lg_recs lg) -> active a) ->
             forall d, active (lg_final (last logs d))).
          { clear. induction logs as [|l logs IH]; intros k prev lpfs pl Hne Hp Hst Hal d; [congruence|].
            cbn [steps_from] in Hst. destruct Hst as ((_ & _ & _ & _ & Es) & _ & Hrest).
            assert (Hf : active (lg_final l)).
            { unfold lg_final. destruct (lg_recs l) as [|p rs] eqn:Er.
              - cbn [last snd]. rewrite Es. exact Hp.
              - destruct (exists_last (l := p :: rs)) as (q & [x a] & E); [discriminate|]. rewrite E, last_last.
                eapply Hal; [left; reflexivity|]. rewrite Er, E. apply in_app_iff. right. left. reflexivity. }
            destruct logs as [|l2 logs]; [exact Hf|].
            change (last (l :: l2 :: logs) d) with (last (l2 :: logs) d).
            eapply IH; [discriminate| |exact Hrest|intros; eapply Hal; [right|]; eassumption]. exact Hf. }
          rewrite (B6 (Log r0 [] [])). eapply Gl; [| |exact B2|exact Hact]; [|exact IHa].
          intros ->. cbn in B1. lia.
        * rewrite B3. intros a [<-|Hin]; [apply IHR; rewrite ER; left; reflexivity|].
          apply in_app_iff in Hin. destruct Hin as [Hin|Hin].
          -- apply IHR. rewrite ER in *. clear - Hin. revert r0 Hin. induction rest as [|y rest IH]; intros r0 Hin; [contradiction|].
             cbn [removelast] in Hin. destruct Hin as [<-|Hin]; [left; reflexivity|right; apply IH, Hin].
          -- apply in_concat in Hin. destruct Hin as (rs & Hrs & Hin). apply in_map_iff in Hrs.
             destruct Hrs as (lg & <- & Hlg). unfold lg_results in Hin. apply in_map_iff in Hin.
             destruct Hin as ([x a'] & <- & Hx). eapply Hact; eassumption.
    - exact IH.
  Qed.

  (** ** Locked components *)
  Lemma session_locked P m ns ms bs fs m1 :
    argsort_ok argsortZ -> described m ns ms bs fs -> session argsortF solve argsortZ P m m1 ->
    exists nh u, m_nodes m1 = Some nh /\ m_built m1 = Some u /\
      forall a, a = u_an u \/ In a (u_R u) ->
      forall p l d, nth_error (n_labels nh) p = Some l -> d < 3 ->
        nth d (row_for bs [1; 1; 1]%Z l) 1%Z <> 1%Z ->
        nth_error (vflat (a_U a)) (3 * p + d) = Some f0 /\ nth_error (vflat (a_U0 a)) (3 * p + d) = Some f0.
  Proof.
    intros HA Hd S. destruct (sound_session _ _ _ _ _ _ _ HA Hd S) as (mb & Hb & Hs).
    pose proof Hd as (Hns & Hbs & Hfs & _ & H2 & Hnd & _ & H3 & _).
    destruct (build_partition _ _ _ _ _ _ HA Hns Hbs Hfs Hnd H2 H3 Hb) as (nh0 & ub0 & En0 & Eub0 & HD & _).
    destruct Hs as (S1 & S2 & S3 & S4 & S5 & nh & eh & ub & u & En & Ee & Eub & Eu & U1 & U2 & G). cbv zeta in G.
    destruct G as (Ec & Htr & Hn1 & Hnd1 & Hre & Hlen & HR).
    assert (nh0 = nh) by congruence. assert (ub0 = ub) by congruence. subst nh0 ub0.
    exists nh, u. split; [congruence|]. split; [exact Eu|]. intros a Ha p l d Hp Hd3 Hf.
    assert (Hra : reached (ctx_of mb ub nh eh) ms (a_DOF0 (u_an ub)) (a_DOF1 (u_an ub)) a).
    { destruct Ha as [->|Ha]; [exact Hre|apply HR, Ha]. }
    destruct Hra as (Hsz & _ & HD1 & Hz). apply Hz.
    - rewrite HD1. intros Hin. apply (HD p l d Hp Hd3) in Hin.
      assert (Hrow : length (row_for bs [1; 1; 1]%Z l) = 3).
      { destruct (in_dec Z.eq_dec l (map fst bs)) as [Hi|Hi].
        - clear - Hi H3. induction bs as [|[b v] bs IH]; [contradiction|]. cbn [row_for map fst snd In] in *.
          destruct (Z.eqb_spec l b); [apply H3; left; reflexivity|]. apply IH; [intros r Hr; apply H3; right; exact Hr|]. destruct Hi as [Hi|Hi]; [congruence|exact Hi].
        - rewrite row_for_notin by exact Hi. reflexivity. }
      apply Hf. etransitivity; [|exact Hin]. apply nth_indep. lia.
    - destruct Hsz as (L & _). rewrite L. cbn [ctx_of c_labels].
      assert (p < length (n_labels nh)) by (apply nth_error_Some; congruence). lia.
  Qed.
End Session.
