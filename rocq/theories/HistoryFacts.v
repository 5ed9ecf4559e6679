(** * Lemmas behind the properties of member histories *)
From Coq Require Import List ZArith Bool Arith Lia Reals Lra.
Import ListNotations.
From Verif Require Import Num NumR Vec Handlers Material Analysis Truss Equil Solver Run ListFacts SpecMech SpecBuild BuildFacts
  SpecSolver SpecState SpecRun RunFacts SessionFacts RunProps
  SpecMaterial MaterialFacts TangentFacts SpecHistory.

Section Hist.
  Context {F : Type} `{NF : Num F}.
  Variable argsortZ : list Z -> list nat.
  Variable argsortF : list F -> list nat.
  Variable solve : list (list F) -> list F -> list F.
  Implicit Types (a : analysis F).

  Lemma traced_session P m m1 recs : traced argsortF solve argsortZ P m m1 recs -> session argsortF solve argsortZ P m m1.
  Proof.
    induction 1 as [m' H|m1 recs fuel m2 out logs goods _ IH HP Hr _|m1 recs st _ IH E].
    - now apply s_build.
    - eapply s_run; [exact IH|exact HP|apply Hr].
    - now apply s_settings.
  Qed.

  Lemma good_part_unique (lg : step_log F) r1 r2 : good_part lg r1 -> good_part lg r2 -> r1 = r2.
  Proof.
    intros [[E1 H1]|(p1 & ms1 & e1 & E1 & O1 & H1)] [[E2 H2]|(p2 & ms2 & e2 & E2 & O2 & H2)].
    - congruence.
    - exfalso. apply (H1 e2); [|exact H2]. rewrite O2. apply in_app_iff. right. now left.
    - exfalso. apply (H2 e1); [|exact H1]. rewrite O1. apply in_app_iff. right. now left.
    - rewrite E1 in E2. apply app_inj_tail in E2. apply E2.
  Qed.

  Section Member.
    Variables (k : nat) (b : member F) (row0 : list F).
    (** The history so far: [l] are all accepted increments, [l'] those kept, and
        [a] is the object in force. *)
    Definition hist l l' a : Prop :=
      kept k row0 l l' /\ law_run (mb_law b) (mb_mat b) row0 (map (member_strain k) l') (map (member_out k) l') /\
      exists sv, a_state a = Some sv /\ nth_error sv k = Some (last (map (member_row k) l') row0).

    Lemma outs_rows l : map snd (map (member_out k) l) = map (member_row k) l.
    Proof. rewrite map_map. reflexivity. Qed.

    Lemma hist_take ms l l' a0 a : nth_error ms k = Some b -> hist l l' a0 -> state_updated ms a0 a ->
      hist (l ++ [a]) (l' ++ [a]) a.
    Proof.
      intros Hb (Hk & Hr & sv & Es & Er) (sv0 & sv' & E0 & E1 & Hl & HH).
      destruct (HH k b Hb) as (row & row' & lam & st & ds & G1 & G2 & G3 & G4 & G5).
      assert (sv0 = sv) by congruence. subst sv0. rewrite Er in G1. injection G1 as <-.
      assert (Ea : member_row k a = row') by (unfold member_row; rewrite E1; now apply nth_error_nth).
      split; [now constructor|]. split.
      - rewrite !map_app. cbn [map]. unfold member_out at 2. rewrite Ea.
        unfold member_strain at 2. rewrite (nth_error_nth _ _ _ G3), (nth_error_nth _ _ _ G4).
        econstructor; [exact Hr|]. rewrite outs_rows. exact G5.
      - exists sv'. split; [exact E1|]. rewrite map_app. cbn [map]. rewrite last_last, Ea. exact G2.
    Qed.

    Lemma hist_state l l' a0 a : hist l l' a0 -> a_state a = a_state a0 -> hist l l' a.
    Proof. intros (H1 & H2 & sv & E1 & E2) E. split; [exact H1|]. split; [exact H2|]. exists sv. split; congruence. Qed.

    Lemma hist_skip l l' a0 a : hist l l' a0 -> a_state a = a_state a0 -> hist (l ++ [a]) l' a.
    Proof.
      intros H E. destruct (hist_state _ _ _ _ H E) as (H1 & H2 & sv & E1 & E2).
      split; [|split; [exact H2|exists sv; auto]]. constructor; [exact H1|].
      unfold member_row at 1. rewrite E1. now apply nth_error_nth.
    Qed.

    Lemma hist_along ms (Q : Prop) : nth_error ms k = Some b -> forall recs x0 a0 l l',
      along (fun x0 a0 x a => state_updated ms a0 a \/ (Q /\ a_state a = a_state a0)) x0 a0 recs ->
      hist l l' a0 ->
      exists l2, hist (l ++ map snd recs) (l' ++ l2) (snd (last recs (x0, a0))) /\ (~ Q -> l2 = map snd recs).
    Proof.
      intros Hb. induction recs as [|[x a] recs IH]; intros x0 a0 l l' Hal Hh; cbn [map].
      - exists []. rewrite !app_nil_r. auto.
      - cbn [along] in Hal. destruct Hal as [Hp Hal].
        assert (El : last ((x, a) :: recs) (x0, a0) = last recs (x, a)).
        { clear. revert x a. induction recs as [|r recs IH]; intros x a; [reflexivity|].
          destruct r as [y c]. change (last ((y, c) :: recs) (x0, a0) = last ((y, c) :: recs) (x, a)).
          rewrite IH. clear. revert y c. induction recs as [|r recs IH]; intros y c; [reflexivity|].
          destruct recs; [reflexivity|]. cbn [last] in *. apply (IH y c). }
        rewrite El. destruct Hp as [Hp|[HQ Hp]].
        + destruct (IH x a (l ++ [a]) (l' ++ [a]) Hal (hist_take _ _ _ _ _ Hb Hh Hp)) as (l2 & H2 & Hn).
          exists (a :: l2). cbn [snd]. rewrite <- !app_assoc in H2. split; [exact H2|]. intros HQ. now rewrite (Hn HQ).
        + destruct (IH x a (l ++ [a]) l' Hal (hist_skip _ _ _ _ Hh Hp)) as (l2 & H2 & Hn).
          exists l2. cbn [snd]. rewrite <- !app_assoc in H2. split; [exact H2|]. intros HQ'. contradiction.
    Qed.

    Lemma hist_steps ms (Q : Prop) c st rows fuel : nth_error ms k = Some b -> forall logs goods s0 prev lpfs pl l l',
      steps_from argsortF solve c st rows fuel s0 prev lpfs pl logs ->
      (forall lg, In lg logs -> exists recs, good_part lg recs /\
         along (fun x0 a0 x a => state_updated ms a0 a \/ (Q /\ a_state a = a_state a0))
               (a_Ured (lg_start lg) ++ [f0]) (lg_start lg) recs /\
         (lg_recs lg = recs \/ exists x a, lg_recs lg = recs ++ [(x, a)] /\
            a_state a = a_state (snd (last recs (x, lg_start lg))))) ->
      Forall2 good_part logs goods -> hist l l' prev ->
      exists l2, (forall d, lg_start d = prev -> lg_recs d = [] -> hist (l ++ map snd (concat goods)) (l' ++ l2) (lg_final (last logs d))) /\
        (~ Q -> l2 = map snd (concat goods)).
    Proof.
      intros Hb. induction logs as [|lg logs IH]; intros goods s0 prev lpfs pl l l' Hst Hlg Hg Hh.
      - inversion Hg. subst goods. exists []. cbn [concat map]. rewrite !app_nil_r. split; [|auto].
        intros d Ed1 Ed2. cbn [last]. unfold lg_final. rewrite Ed2. cbn. rewrite Ed1. exact Hh.
      - inversion Hg as [|? g ? gs Hg1 Hg2]. subst goods. cbn [steps_from] in Hst. destruct Hst as (Hs & _ & Hrest).
        destruct (Hlg lg (or_introl eq_refl)) as (recs & G1 & G2 & G3).
        assert (recs = g) by (eapply good_part_unique; eassumption). subst g.
        assert (Hs0 : hist l l' (lg_start lg)).
        { eapply hist_state; [exact Hh|]. destruct Hs as (_ & _ & _ & _ & Es). rewrite Es. reflexivity. }
        destruct (hist_along ms Q Hb _ _ _ _ _ G2 Hs0) as (l2 & H2 & Hn2).
        assert (Hf : hist (l ++ map snd recs) (l' ++ l2) (lg_final lg)).
        { eapply hist_state; [exact H2|]. unfold lg_final. destruct G3 as [E|(x1 & a1 & E & Ea)]; rewrite E.
          - f_equal. apply last_snd.
          - rewrite last_last. cbn [snd]. rewrite Ea. f_equal. apply last_snd. }
        assert (Hf' : hist (l ++ map snd recs) (l' ++ l2) (handed_over (lg_final lg))) by (eapply hist_state; [exact Hf|reflexivity]).
        destruct (IH gs (S s0) _ _ _ _ _ Hrest (fun lg' Hi => Hlg lg' (or_intror Hi)) Hg2 Hf') as (l3 & H3 & Hn3).
        exists (l2 ++ l3). cbn [concat]. rewrite map_app. split.
        + intros d _ _. destruct logs as [|lg2 logs].
          * inversion Hg2. subst gs. cbn [concat map] in *. rewrite app_nil_r in *. cbn [last].
            specialize (H3 (Log (handed_over (lg_final lg)) [] []) eq_refl eq_refl). cbn [last] in H3.
            rewrite app_assoc. eapply hist_state; [exact H3|]. reflexivity.
          * specialize (H3 (Log (handed_over (lg_final lg)) [] []) eq_refl eq_refl).
            rewrite !app_assoc. rewrite <- !app_assoc in H3. rewrite <- !app_assoc.
            replace (last (lg :: lg2 :: logs) d) with (last (lg2 :: logs) (Log (handed_over (lg_final lg)) [] [])); [exact H3|].
            change (last (lg :: lg2 :: logs) d) with (last (lg2 :: logs) d). clear. revert lg2.
            induction logs as [|x logs IH]; intros lg2; [reflexivity|]. exact (IH x).
        + intros HQ. now rewrite (Hn2 HQ), (Hn3 HQ).
    Qed.
  End Member.

  Lemma build_state m m' ms : build argsortZ m = Ok m' -> (exists eh, m_elems m = Some eh /\ lists_members eh ms) ->
    (0 < s_nstatev (m_set m'))%Z -> argsort_ok argsortZ ->
    exists u, m_built m' = Some u /\ a_state (u_an u) = Some (repeat (repeat f0 (Z.to_nat (s_nstatev (m_set m')))) (length ms)).
  Proof.
    intros H (eh0 & He & Hms) Hn HA.
    destruct (build_inv _ _ _ H) as (nh0 & eh & nh & bh & fh & D0 & D1 & an & E1 & E2 & _ & _ & _ & _ & _ & _ & _ & Han & Em).
    cbv zeta in *. assert (eh0 = eh) by congruence. subst eh0 m'.
    unfold analysis_build in Han. apply bind_ok in Han. destruct Han as (ur & _ & Han). injection Han as <-.
    cbn [m_built m_set with_nstatev s_nstatev] in *. eexists. split; [reflexivity|]. cbn [u_an a_state].
    rewrite (proj2 (Z.ltb_lt _ _) Hn). destruct Hms as (El & _). rewrite El, map_length. reflexivity.
  Qed.

  Lemma run_nstatev m fuel m' out : run argsortF solve m fuel = Ok (m', out) -> m_set m' = m_set m.
  Proof.
    intros H. apply run_ok in H.
    destruct H as (u & nh & eh & fh & r0 & rest & u' & A1 & A2 & A3 & A4 & A5 & Em & _). now subst m'.
  Qed.

  (** The history of a member over a whole session. *)
  Lemma session_history P m ns ms bs fs m1 recs k b :
    argsort_ok argsortZ -> described m ns ms bs fs -> traced argsortF solve argsortZ P m m1 recs ->
    (0 < s_nstatev (m_set m1))%Z -> nth_error ms k = Some b ->
    let row0 := repeat f0 (Z.to_nat (s_nstatev (m_set m1))) in
    exists l', kept k row0 recs l' /\
      law_run (mb_law b) (mb_mat b) row0 (map (member_strain k) l') (map (member_out k) l') /\
      ((forall st, P st -> no_predictor st) -> l' = recs) /\
      exists u, m_built m1 = Some u /\ hist k b row0 recs l' (u_an u).
  Proof.
    intros HA Hd HT Hn Hb. cbv zeta.
    assert (G : exists u l', m_built m1 = Some u /\ hist k b (repeat f0 (Z.to_nat (s_nstatev (m_set m1)))) recs l' (u_an u) /\
      ((forall st, P st -> no_predictor st) -> l' = recs)).
    { induction HT as [m' H|m1 recs fuel m2 out logs goods HT IH HP Hr Hg|m1 recs st HT IH E].
      - destruct (build_state _ _ ms H ltac:(apply Hd) Hn HA) as (u & Eu & Es). exists u, []. split; [exact Eu|]. split; [|reflexivity].
        split; [constructor|]. split; [constructor|]. eexists. split; [exact Es|]. cbn [map last].
        assert (k < length ms) by (apply nth_error_Some; congruence).
        rewrite (nth_error_nth' _ (repeat f0 (Z.to_nat (s_nstatev (m_set m'))))) by (rewrite repeat_length; lia).
        now rewrite nth_repeat.
      - pose proof Hr as (Hrun & _ & Hne & u & nh & eh & fh & r0 & rest & u' & B1 & B2 & B3 & B4 & B5 & B6 & B7 & _ & _ & _ & B8).
        rewrite (run_nstatev _ _ _ _ Hrun) in *. specialize (IH Hn). destruct IH as (u1 & l' & Eu & Hh & Hnp).
        assert (u1 = u) by congruence. subst u1.
        pose proof (records_state _ _ _ _ _ _ _ _ _ _ _ _ _ _ HA Hd (traced_session _ _ _ _ HT) Hr Hn) as HR.
        set (Q := s_jpre (m_set m1) = true /\ s_jfixed (m_set m1) = false).
        assert (HR' : forall lg, In lg logs -> exists recs, good_part lg recs /\
         along (fun x0 a0 x a => state_updated ms a0 a \/ (Q /\ a_state a = a_state a0))
               (a_Ured (lg_start lg) ++ [f0]) (lg_start lg) recs /\
         (lg_recs lg = recs \/ exists x a, lg_recs lg = recs ++ [(x, a)] /\
            a_state a = a_state (snd (last recs (x, lg_start lg))))).
        { intros lg Hin. destruct (HR lg Hin) as (rc & H1 & H2 & H3). exists rc. split; [exact H1|]. split; [|exact H3].
          clear - H2. revert H2. generalize (a_Ured (lg_start lg) ++ [f0]). generalize (lg_start lg).
          induction rc as [|[x a] rc IH]; intros a0 x0 H2; [exact I|]. cbn [along] in *. destruct H2 as [H2 H3].
          split; [|now apply IH]. unfold Q. tauto. }
        assert (Hh' : hist k b (repeat f0 (Z.to_nat (s_nstatev (m_set m1)))) recs l'
          (set_lpf f0 (set_Vred (a_Ured (u_an u) ++ [f0]) (u_an u)))) by (eapply hist_state; [exact Hh|reflexivity]).
        destruct (hist_steps k b _ ms Q _ _ _ _ Hb _ _ _ _ _ _ _ _ B7 HR' Hg Hh') as (l2 & H2 & Hn2).
        exists u', (l' ++ l2). split; [exact B6|]. split.
        + rewrite (B8 (Log (set_lpf f0 (set_Vred (a_Ured (u_an u) ++ [f0]) (u_an u))) [] [])). apply H2; reflexivity.
        + intros Hall. rewrite (Hnp Hall), Hn2; [reflexivity|]. intros [Q1 Q2].
          destruct (Hall _ HP) as [E|E]; congruence.
      - cbn [with_settings m_set m_built] in *. rewrite E in *. apply IH. exact Hn. }
    destruct G as (u & l' & Eu & Hh & Hnp). exists l'. split; [apply Hh|]. split; [apply Hh|]. split; [exact Hnp|].
    exists u. auto.
  Qed.

  (** Every session whose runs have at least one step can be traced. *)
  Lemma session_traced (P : settings F -> Prop) m ns ms bs fs m1 :
    argsort_ok argsortZ -> described m ns ms bs fs -> (forall st, P st -> (0 < s_nsteps st)%Z) ->
    session argsortF solve argsortZ P m m1 -> (0 < s_nstatev (m_set m1))%Z ->
    exists recs, traced argsortF solve argsortZ P m m1 recs.
  Proof.
    intros HA Hd HP S. induction S as [m' H|m1 fuel m2 out S IH Hp H|m1 st S IH E]; intros Hn.
    - exists []. now constructor.
    - rewrite (run_nstatev _ _ _ _ H) in Hn. destruct (IH Hn) as (recs & HT).
      destruct (run_ran_as _ _ _ _ _ _ H (HP _ Hp)) as (logs & HL).
      assert (Hg : exists goods, Forall2 good_part logs goods).
      { pose proof (records_state _ _ _ _ _ _ _ _ _ _ _ _ _ _ HA Hd S HL Hn) as HR. clear - HR.
        induction logs as [|lg logs IH]; [exists []; constructor|].
        destruct (HR lg (or_introl eq_refl)) as (rc & H1 & _). destruct IH as [gs Hgs]; [intros l Hl; apply HR; now right|].
        exists (rc :: gs). now constructor. }
      destruct Hg as [goods Hg]. eexists. eapply t_run; eassumption.
    - cbn [with_settings m_set] in *. rewrite E in Hn. destruct (IH Hn) as (recs & HT). exists recs. now apply t_settings.
  Qed.
End Hist.

Local Open Scope R_scope.
Lemma law_plastic E K Sy rest n h outs : law_run UmatPl (E :: K :: Sy :: rest) (repeat 0 n) h outs ->
  mat_run [E; K; Sy] h (map (fun o => (fst o, nth 0 (snd o) 0, nth 1 (snd o) 0)) outs).
Proof.
  induction 1 as [|h outs e s t row H IH Hu]; [constructor|]. rewrite map_app. cbn [map fst snd].
  assert (L : forall o : R * list R, snd o = last (map snd outs) (repeat 0 n) ->
    nth 0 (snd o) 0 = m_yield (last (map (fun o => (fst o, nth 0 (snd o) 0, nth 1 (snd o) 0)) outs) mat_zero) /\
    nth 1 (snd o) 0 = m_epl (last (map (fun o => (fst o, nth 0 (snd o) 0, nth 1 (snd o) 0)) outs) mat_zero)).
  { intros o Eo. rewrite Eo. destruct outs as [|o1 outs1] using rev_ind.
    - cbn [map last]. rewrite !nth_repeat. split; reflexivity.
    - rewrite !map_app. cbn [map]. rewrite !last_last. split; reflexivity. }
  specialize (Hu 0). cbn [umat] in Hu. destruct (last (map snd outs) (repeat 0 n)) as [|y [|p sr]] eqn:El.
  - discriminate.
  - discriminate.
  - rewrite umat_pl_pad in Hu. destruct (L (0, y :: p :: sr) eq_refl) as [L1 L2]. cbn [snd nth] in L1, L2.
    rewrite L1, L2 in Hu. clear L L1 L2 El.
    destruct (umat_pl_total E K Sy e 0 (m_yield (last (map (fun o => (fst o, nth 0 (snd o) 0, nth 1 (snd o) 0)) outs) mat_zero))
      (m_epl (last (map (fun o => (fst o, nth 0 (snd o) 0, nth 1 (snd o) 0)) outs) mat_zero))) as (s' & t' & y' & p' & Eu).
    rewrite Eu in Hu. cbn in Hu. injection Hu as <- <- <-. cbn [nth]. econstructor; eassumption.
Qed.

Lemma law_length {F} `{Num F} u mat row0 h (outs : list (F * list F)) : law_run u mat row0 h outs -> length outs = length h.
Proof. induction 1; [reflexivity|]. rewrite !app_length. cbn. lia. Qed.

Lemma mat_prefix {X} E K Sy (f : X -> R) (g : X -> mat_state) : forall post pre,
  mat_run [E; K; Sy] (map f (pre ++ post)) (map g (pre ++ post)) -> mat_run [E; K; Sy] (map f pre) (map g pre).
Proof.
  induction post as [|x post IH] using rev_ind; intros pre H; [now rewrite app_nil_r in H|].
  rewrite app_assoc, !map_app in H. cbn [map] in H. rewrite <- !map_app in H.
  destruct (mat_run_snoc_inv _ _ _ _ _ _ H) as (outs' & de & s & t & y & p & E1 & Hr & _).
  apply app_inj_tail in E1. destruct E1 as [<- _]. apply IH. exact Hr.
Qed.

Lemma accumulated_nonneg : forall outs p, 0 <= accumulated p outs.
Proof. induction outs as [|o outs IH]; intros p; cbn [accumulated]; [lra|]. pose proof (Rabs_pos (m_epl o - p)). specialize (IH (m_epl o)). lra. Qed.
Lemma accumulated_mono : forall l l' p, accumulated p l <= accumulated p (l ++ l').
Proof.
  induction l as [|o l IH]; intros l' p; cbn [app accumulated]; [apply accumulated_nonneg|]. specialize (IH l' (m_epl o)). lra.
Qed.

Lemma admissible {X} E K Sy (f : X -> R) (g : X -> mat_state) pre a post : 0 < E -> 0 <= K -> 0 < Sy ->
  mat_run [E; K; Sy] (map f (pre ++ a :: post)) (map g (pre ++ a :: post)) ->
  Rabs (m_stress (g a)) <= m_yield (g a) /\ Sy <= m_yield (g a) /\ m_stress (g a) = E * (f a - m_epl (g a)) /\
  m_yield (g a) = Sy + K * accumulated 0 (map g (pre ++ [a])) /\
  forall a', In a' pre -> m_yield (g a') <= m_yield (g a).
Proof.
  intros HE HK HS H. replace (pre ++ a :: post) with ((pre ++ [a]) ++ post) in H by (rewrite <- app_assoc; reflexivity). apply mat_prefix in H.
  assert (S : forall pre a, mat_run [E; K; Sy] (map f (pre ++ [a])) (map g (pre ++ [a])) ->
    m_stress (g a) = E * (f a - m_epl (g a)) /\ m_yield (g a) = Sy + K * accumulated 0 (map g (pre ++ [a]))).
  { clear pre a H. intros pre a H. rewrite (map_app f) in H. cbn [map] in H.
    pose proof (split_and_hardening E K Sy _ _ _ HE HK HS H) as G. cbv zeta in G.
    rewrite map_app in G. cbn [map] in G. rewrite last_last in G. rewrite map_app. exact G. }
  destruct (S _ _ H) as [S1 S2]. pose proof H as H'. rewrite (map_app f) in H'. cbn [map] in H'.
  destruct (yield_bound E K Sy _ _ _ HE HK HS H') as (outs' & o & Eo & _ & B1 & B2 & _).
  rewrite map_app in Eo. cbn [map] in Eo. apply app_inj_tail in Eo. destruct Eo as [_ <-].
  repeat match goal with |- _ /\ _ => split end; auto.
  intros a' Hin. apply in_split in Hin. destruct Hin as (l1 & l2 & ->).
  replace ((l1 ++ a' :: l2) ++ [a]) with ((l1 ++ [a']) ++ l2 ++ [a]) in H by (rewrite <- !app_assoc; reflexivity). apply mat_prefix in H.
  destruct (S _ _ H) as [_ S3]. rewrite S2, S3. apply Rplus_le_compat_l, Rmult_le_compat_l; [exact HK|].
  replace ((l1 ++ a' :: l2) ++ [a]) with ((l1 ++ [a']) ++ l2 ++ [a]) by (rewrite <- !app_assoc; reflexivity).
  rewrite (map_app g (l1 ++ [a'])). apply accumulated_mono.
Qed.
