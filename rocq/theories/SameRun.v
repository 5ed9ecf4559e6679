(** * Build and runs of two descriptions of the same truss *)
From Coq Require Import List ZArith Bool Arith Lia Permutation Sorting.Sorted.
Import ListNotations.
From Verif Require Import Num Vec Handlers Material Analysis Truss Equil Solver Run ListFacts SpecMech SpecBuild
  BuildFacts BuildProps EquilFacts SpecState FrameFacts EvalFacts SpecRun ReachFacts SpecSame SimFacts SameFacts.

Lemma NoDup_map_on {A B} (f : A -> B) l : NoDup l ->
  (forall a b, In a l -> In b l -> f a = f b -> a = b) -> NoDup (map f l).
Proof.
  induction 1 as [|x l Hn Hd IH]; intros Hf; cbn [map]; constructor.
  - intros Hin. apply in_map_iff in Hin. destruct Hin as (y & E & Hy). apply Hn.
    rewrite <- (Hf y x); auto; [right; exact Hy|left; reflexivity].
  - apply IH. intros a b Ha Hb. apply Hf; right; assumption.
Qed.

Lemma Forall2_mono {A B} (P Q : A -> B -> Prop) l l' : (forall x y, P x y -> Q x y) -> Forall2 P l l' -> Forall2 Q l l'.
Proof. induction 2; constructor; auto. Qed.

Section Run.
  Context {F : Type} `{NF : Num F}.
  Variable argsortZ : list Z -> list nat.
  Variable argsortF : list F -> list nat.
  Variable solve : list (list F) -> list F -> list F.
  Notation AN := (analysis F).

  (** ** Attribute assignments on both sides *)
  Lemma same_set p (a a' : AN) (HS : same_result p a a') :
    (forall v, same_result p (set_j v a) (set_j v a')) /\
    (forall v, same_result p (set_Kmod v a) (set_Kmod v a')) /\
    (forall v, same_result p (set_dVmax v a) (set_dVmax v a')) /\
    (forall v, same_result p (set_lpf v a) (set_lpf v a')) /\
    (forall v, same_result p (set_Ured v a) (set_Ured v a')) /\
    (forall v, same_result p (set_Vred v a) (set_Vred v a')) /\
    (forall v, same_result p (set_step v a) (set_step v a')) /\
    (forall v, same_result p (set_f0red v a) (set_f0red v a')) /\
    (forall v, same_result p (set_fconst v a) (set_fconst v a')) /\
    (forall v, same_result p (set_forces v a) (set_forces v a')) /\
    (forall v, same_result p (set_U0 v a) (set_U0 v a')).
  Proof.
    destruct HS as (E1 & E2 & E3 & E4 & E5 & E6 & E7 & E8 & E9 & E10 & E11 & E12 & E13 & E14 & E15 & E16 & E17 & E18 & P1 & P2 & P3 & P4).
    repeat match goal with |- _ /\ _ => split end; intros v; unfold same_result; cbn;
      repeat match goal with |- _ /\ _ => split end; auto.
  Qed.

  Section Two.
    Variables c c' : ctx F.
    Variables ms ms' : list (member F).
    Variable p : list nat.
    Hypothesis Hok : truss_ok c ms.
    Hypothesis Hok' : truss_ok c' ms'.
    Hypothesis Hn1 : c_ndof1 c' = c_ndof1 c.
    Hypothesis Hns : c_nstatev c' = c_nstatev c.
    Hypothesis Hlab : length (c_labels c') = length (c_labels c).
    Hypothesis Hbars : bars_by (alike c c') p ms ms'.
    Hypothesis Hord : order_free c ms p.
    Notation Sm := (Sim c ms p).

    Lemma path_sim Ured a a' d j jpre cfg fuel t : Sm a a' ->
      pathfollow solve argsortF (equilibrium c) (stiffness c) Ured a d j jpre cfg fuel = Ok t ->
      exists t', pathfollow solve argsortF (equilibrium c') (stiffness c') Ured a' d j jpre cfg fuel = Ok t' /\ pf_sim Sm t t'.
    Proof.
      intros HS H. revert H. 
      apply (pathfollow_sim solve argsortF (equilibrium c) (equilibrium c') (stiffness c) (stiffness c') Sm);
        try (intros v x x' [Hx Hz]; split; [apply (same_set _ _ _ Hx)|exact Hz]).
      - intros V V0 w x x' Hx b y E. eapply (equilibrium_sim c c' ms ms' p); eauto.
      - intros V x x' Hx b y E. eapply (stiffness_sim c c' ms ms' p); eauto.
      - intros x x' [Hx _]. apply Hx.
      - exact HS.
    Qed.

    Definition rs_sim (s s' : runst F) : Prop :=
      Sm (r_an s) (r_an s') /\ Forall2 Sm (r_R s) (r_R s') /\
      r_lpf_end s' = r_lpf_end s /\ r_out s' = r_out s.

    Lemma Forall2_removelast {A B} (P : A -> B -> Prop) l l' : Forall2 P l l' -> Forall2 P (removelast l) (removelast l').
    Proof.
      induction 1 as [|x y l l' Hx H IH]; [constructor|]. destruct H as [|x2 y2 l l' H2 H]; [constructor|].
      change (removelast (x :: x2 :: l)) with (x :: removelast (x2 :: l)).
      change (removelast (y :: y2 :: l')) with (y :: removelast (y2 :: l')). constructor; auto.
    Qed.

    Lemma Forall2_rev' {A B} (P : A -> B -> Prop) l l' : Forall2 P l l' -> Forall2 P (rev l) (rev l').
    Proof. induction 1; cbn; [constructor|]. apply Forall2_app; auto. Qed.

    Lemma recs_same l l' : Forall2 (rec_sim Sm) l l' -> Forall2 Sm (map snd l) (map snd l').
    Proof. induction 1 as [|u v l l' [_ Hu] H IH]; cbn [map]; constructor; auto. Qed.

    Lemma writes_same (l l' : list AN) : Forall2 Sm l l' -> forall R0 R0' : list AN, Forall2 Sm R0 R0' ->
      Forall2 Sm (fold_left write_result l R0) (fold_left write_result l' R0').
    Proof.
      induction 1 as [|x y l l' Hx H IH]; intros R0 R0' HR0; cbn [fold_left]; auto.
      apply IH. unfold write_result. apply Forall2_app; [apply Forall2_removelast, HR0|]. constructor; [exact Hx|]. constructor; [exact Hx|constructor].
    Qed.

    Lemma run_step_sim st rows nsteps fuel s s' step t : rs_sim s s' ->
      run_step argsortF solve c st rows nsteps fuel s step = Ok t ->
      exists t', run_step argsortF solve c' st rows nsteps fuel s' step = Ok t' /\ rs_sim t t'.
    Proof.
      intros (S1 & SR & EL & EO) H. unfold run_step in *.
      apply bind_ok in H. destruct H as (incs & -> & H). cbn [bind].
      apply bind_ok in H. destruct H as (xl & -> & H). cbn [bind].
      apply bind_ok in H. destruct H as (an & Han & H).
      assert (G : exists an', step_setup rows step s' = Ok an' /\ Sm an an').
      { unfold step_setup in *. rewrite EL. apply bind_ok in Han. destruct Han as (fc & -> & Han). cbn [bind].
        destruct S1 as [S1 Sz]. assert (ED : a_DOF1 (r_an s') = a_DOF1 (r_an s)) by apply S1. rewrite ED.
        cbv zeta in *. apply bind_ok in Han. destruct Han as (fr & -> & Han). cbn [bind]. injection Han as <-.
        eexists. split; [reflexivity|]. split; [|exact Sz].
        do 4 (apply same_set). exact S1. }
      destruct G as (an' & -> & San). cbn [bind].
      assert (EU : a_Ured an' = a_Ured an) by apply San. rewrite EU.
      apply bind_ok in H. destruct H as (pf & Hpf & H).
      destruct (path_sim _ _ _ _ _ _ _ _ _ San Hpf) as (pf' & Hpf' & PS).
      change (fun V V0 w a => equilibrium c' V V0 w a) with (equilibrium c').
      change (fun U a => stiffness c' U a) with (stiffness c'). rewrite Hpf'. cbn [bind].
      destruct PS as (PA & _ & _ & _ & _ & _ & PR & PO). cbv zeta in *.
      assert (HR1 : Forall2 Sm (fold_left write_result (map snd (tl (ps_res pf))) (r_R s))
                                            (fold_left write_result (map snd (tl (ps_res pf'))) (r_R s'))).
      { assert (HT : Forall2 Sm (map snd (tl (ps_res pf))) (map snd (tl (ps_res pf')))).
        { destruct PR as [|x y l l' _ Hl]; [constructor|]. cbn [tl]. apply recs_same, Hl. }
        apply writes_same; assumption. }
      set (R1 := fold_left write_result (map snd (tl (ps_res pf))) (r_R s)) in *.
      set (R1' := fold_left write_result (map snd (tl (ps_res pf'))) (r_R s')) in *.
      assert (HR2 : Forall2 Sm (copy_U_last R1) (copy_U_last R1')).
      { unfold copy_U_last. destruct (Forall2_rev' _ _ _ HR1) as [|x y l l' Hx _]; [constructor|].
        apply Forall2_app; [apply Forall2_removelast, HR1|]. constructor; [|constructor].
        assert (E : a_U y = a_U x) by apply Hx. rewrite E. destruct Hx as [Hx Hz]. split; [apply same_set, Hx|].
        unfold sizes_ok in *. cbn. destruct Hz as (Z1 & Z2 & Z3). auto. }
      apply bind_ok in H. destruct H as (lpf & Hlpf & H).
      assert (Hl' : match rev (copy_U_last R1') with [] => Err IndexError | a :: _ => Ok (a_lpf a) end = Ok lpf).
      { destruct (Forall2_rev' _ _ _ HR2) as [|x y l l' Hx _]; [discriminate|].
        injection Hlpf as <-. f_equal. apply Hx. }
      rewrite Hl'. cbn [bind]. rewrite EL, EO, PO.
      destruct (Nat.ltb (step + 1) nsteps).
      - injection H as <-. eexists. split; [reflexivity|]. unfold rs_sim. cbn. split; [|auto].
        destruct PA as [PA Pz]. assert (E : a_Vred (ps_an pf') = a_Vred (ps_an pf)) by apply PA. rewrite E.
        split; [|exact Pz]. do 2 apply same_set. exact PA.
      - injection H as <-. eexists. split; [reflexivity|]. unfold rs_sim. cbn. split; [exact PA|].
        split; [apply Forall2_removelast, HR2|auto].
    Qed.

    Lemma steps_sim st rows nsteps fuel l : forall s s' t, rs_sim s s' ->
      foldM (run_step argsortF solve c st rows nsteps fuel) l s = Ok t ->
      exists t', foldM (run_step argsortF solve c' st rows nsteps fuel) l s' = Ok t' /\ rs_sim t t'.
    Proof.
      induction l as [|k l IH]; intros s s' t HS H; cbn [foldM] in *.
      - injection H as <-. eauto.
      - apply bind_ok in H. destruct H as (s1 & H1 & H).
        destruct (run_step_sim _ _ _ _ _ _ _ _ HS H1) as (s1' & -> & S1). cbn [bind]. eapply IH; eassumption.
    Qed.
  End Two.

  (** ** Models *)
  Definition msim (c c' : ctx F) (ms : list (member F)) (p : list nat) (m m' : model F) : Prop :=
    m_set m' = m_set m /\
    exists u u' nh nh' eh eh' fh fh', m_built m = Some u /\ m_built m' = Some u' /\
      m_nodes m = Some nh /\ m_nodes m' = Some nh' /\ m_elems m = Some eh /\ m_elems m' = Some eh' /\
      m_forces m = Some fh /\ m_forces m' = Some fh' /\ e_rows fh' = e_rows fh /\
      c = ctx_of m u nh eh /\ c' = ctx_of m' u' nh' eh' /\
      Sim c ms p (u_an u) (u_an u') /\ Forall2 (Sim c ms p) (u_R u) (u_R u') /\ u_lpf_end u' = u_lpf_end u /\
      u_nnodes u' = u_nnodes u /\ u_ndof1 u' = u_ndof1 u.

  Lemma msim_results c c' ms p m m' : msim c c' ms p m m' -> same_results p m m'.
  Proof.
    intros (_ & u & u' & nh & nh' & eh & eh' & fh & fh' & Eu & Eu' & _ & _ & _ & _ & _ & _ & _ & _ & _ & [HS _] & HR & HL & _).
    exists u, u'. split; [exact Eu|]. split; [exact Eu'|]. split; [|split; [apply HL|exact HS]].
    clear - HR. induction HR as [|x y l l' [Hx _] H IH]; constructor; auto.
  Qed.

  Section Models.
    Variables c c' : ctx F.
    Variables ms ms' : list (member F).
    Variable p : list nat.
    Hypothesis Hok : truss_ok c ms.
    Hypothesis Hok' : truss_ok c' ms'.
    Hypothesis Hn1 : c_ndof1 c' = c_ndof1 c.
    Hypothesis Hns : c_nstatev c' = c_nstatev c.
    Hypothesis Hlab : length (c_labels c') = length (c_labels c).
    Hypothesis Hbars : bars_by (alike c c') p ms ms'.
    Hypothesis Hord : order_free c ms p.

    Lemma run_sim m m' fuel m1 out : msim c c' ms p m m' -> run argsortF solve m fuel = Ok (m1, out) ->
      exists m1', run argsortF solve m' fuel = Ok (m1', out) /\ msim c c' ms p m1 m1'.
    Proof.
      intros (Es & u & u' & nh & nh' & eh & eh' & fh & fh' & Eu & Eu' & En & En' & Ee & Ee' & Ef & Ef' & Er & Ec & Ec' & HS & HR & HL & HN & HN1) H.
      unfold run in *. cbv zeta in *. rewrite Es, Eu', En', Ee', Ef'. rewrite Eu, En, Ee, Ef in H.
      destruct (_ && _); [discriminate|]. destruct (_ && _ && _); [discriminate|].
      assert (HR0 : Forall2 (Sim c ms p) (u_R u) (u_R u')) by exact HR.
      destruct HR as [|r0 r0' rest rest' Hr0 Hrest]; [discriminate|].
      assert (HA : Sim c ms p (set_lpf f0 (set_Vred (a_Ured (u_an u) ++ [f0]) (u_an u)))
                             (set_lpf f0 (set_Vred (a_Ured (u_an u') ++ [f0]) (u_an u')))).
      { destruct HS as [HS Hz]. assert (E : a_Ured (u_an u') = a_Ured (u_an u)) by apply HS. rewrite E.
        split; [|exact Hz]. do 2 apply same_set. exact HS. }
      assert (E1 : Ctx (n_labels nh) (n_coords nh) eh (u_nnodes u) (u_ndof1 u) (s_nstatev (m_set m)) = c) by (symmetry; exact Ec).
      assert (E2 : Ctx (n_labels nh') (n_coords nh') eh' (u_nnodes u') (u_ndof1 u') (s_nstatev (m_set m)) = c').
      { rewrite <- Es. symmetry. exact Ec'. }
      rewrite E1 in H. rewrite E2, Er.
      apply bind_ok in H. destruct H as (s & H1 & H).
      edestruct (steps_sim c c' ms ms' p) as (s' & Hs' & SS); [eassumption..| |exact H1|].
      2:{ rewrite Hs'. cbn [bind]. injection H as <- <-. destruct SS as (A1 & A2 & A3 & A4). rewrite A4.
          eexists. split; [reflexivity|]. split; [reflexivity|].
          do 8 eexists. cbn [m_built m_nodes m_elems m_forces].
          do 8 (split; [reflexivity|]). split; [exact Er|].
          split; [symmetry; exact E1|]. split; [symmetry; exact E2|]. cbn. repeat (split; [assumption|]). assumption. }
      unfold rs_sim. cbn. rewrite HL. split; [exact HA|]. split; [|auto]. constructor; auto. 
    Qed.

    Lemma play_sim acts : forall m m' m1 out, msim c c' ms p m m' -> play argsortF solve acts m = Ok (m1, out) ->
      exists m1', play argsortF solve acts m' = Ok (m1', out) /\ msim c c' ms p m1 m1'.
    Proof.
      induction acts as [|[fuel|st] acts IH]; intros m m' m1 out HS H; cbn [play] in *.
      - injection H as <- <-. eauto.
      - apply bind_ok in H. destruct H as ([m2 o2] & H1 & H).
        destruct (run_sim _ _ _ _ _ HS H1) as (m2' & -> & S2). cbn [bind].
        apply bind_ok in H. destruct H as ([m3 o3] & H2 & H).
        destruct (IH _ _ _ _ S2 H2) as (m3' & -> & S3). cbn [bind]. injection H as <- <-. eauto.
      - eapply IH; [|exact H]. destruct HS as (Es & u & u' & nh & nh' & eh & eh' & fh & fh' & Rest). rewrite Es.
        split; [reflexivity|]. exists u, u', nh, nh', eh, eh', fh, fh'.
        destruct Rest as (Eu & Eu' & En & En' & Ee & Ee' & Ef & Ef' & Er & Ec & Ec' & HS).
        cbn [m_built m_nodes m_elems m_forces with_settings]. do 9 (split; [assumption|]).
        split; [exact Ec|]. split; [|exact HS]. rewrite Ec'. unfold ctx_of. cbn. rewrite Es. reflexivity.
    Qed.
  End Models.

  (** ** Build *)
  Section Build.
    Variable rho : Z -> Z.
    Variable mv : v3 F -> v3 F.
    Variables m m' : model F.
    Variables ns ns' : list (Z * v3 F).
    Variables ms ms' : list (member F).
    Variables bs bs' : list (Z * list Z).
    Variables fs fs' : list (Z * list F).
    Variable bar : member F -> member F -> Prop.
    Variable p : list nat.
    Hypothesis HA : argsort_ok argsortZ.
    Hypothesis Hd : described m ns ms bs fs.
    Hypothesis Hd' : described m' ns' ms' bs' fs'.
    Hypothesis Hre : redrawn rho mv m m' ns ns' bs bs' fs fs'.
    Hypothesis Hby : bars_by bar p ms ms'.
    Hypothesis Hlaw : forall b b', bar b b' -> mb_law b' = mb_law b.

    Lemma rho_inj a b : In a (map fst ns) -> In b (map fst ns) -> rho a = rho b -> a = b.
    Proof.
      intros Ha Hb E. destruct Hre as (Hk & _). destruct (Z.lt_trichotomy a b) as [L|[L|L]]; auto.
      - specialize (Hk _ _ Ha Hb L). lia.
      - specialize (Hk _ _ Hb Ha L). lia.
    Qed.

    Lemma renamed_fst {A} (f : A -> A) (rows : list (Z * A)) : map fst (renamed rho f rows) = map rho (map fst rows).
    Proof. unfold renamed. rewrite !map_map. reflexivity. Qed.

    Lemma matches_renamed {A} (rows rows' : list (Z * A)) :
      Permutation rows' (renamed rho (fun x => x) rows) -> matches ns rows -> matches ns' rows'.
    Proof.
      intros Hp [Hnd Hin]. destruct Hre as (_ & Hn & _). split.
      - eapply Permutation_NoDup; [apply Permutation_sym, Permutation_map, Hp|]. rewrite renamed_fst.
        apply NoDup_map_on; auto. intros a b Ha Hb E. apply rho_inj; auto.
      - intros l Hl. eapply Permutation_in in Hl; [|apply Permutation_map, Hp].
        eapply Permutation_in; [apply Permutation_sym, Permutation_map, Hn|].
        rewrite renamed_fst. rewrite renamed_fst in Hl. apply in_map_iff in Hl. destruct Hl as (x & <- & Hx). apply in_map. auto.
    Qed.

    Lemma row_for_renamed {A} (rows rows' : list (Z * A)) d l :
      Permutation rows' (renamed rho (fun x => x) rows) -> matches ns rows -> In l (map fst ns) ->
      row_for rows' d (rho l) = row_for rows d l.
    Proof.
      intros Hp Hm Hl. destruct (matches_renamed _ _ Hp Hm) as [Hnd' _]. destruct Hm as [Hnd Hin].
      destruct (in_dec Z.eq_dec l (map fst rows)) as [Hi|Hi].
      - apply in_map_iff in Hi. destruct Hi as ([l0 v] & E & Hi). cbn in E. subst l0.
        rewrite (row_for_In rows d l v Hnd Hi). apply row_for_In; auto.
        eapply Permutation_in; [apply Permutation_sym, Hp|]. unfold renamed. apply in_map_iff. exists (l, v). auto.
      - rewrite (row_for_notin rows) by exact Hi. apply row_for_notin. intros Hx.
        eapply Permutation_in in Hx; [|apply Permutation_map, Hp]. rewrite renamed_fst in Hx.
        apply in_map_iff in Hx. destruct Hx as (l1 & E & Hx). apply Hi. rewrite <- (rho_inj l1 l); auto.
    Qed.

    Lemma sorted_rho l : StronglySorted Z.lt l -> incl l (map fst ns) -> StronglySorted Z.le (map rho l).
    Proof.
      induction 1 as [|a l Hs IH Hf]; intros Hi; cbn [map]; constructor.
      - apply IH. intros x Hx. apply Hi. right. exact Hx.
      - apply Forall_forall. intros y Hy. apply in_map_iff in Hy. destruct Hy as (x & <- & Hx).
        rewrite Forall_forall in Hf. apply Z.lt_le_incl. apply (proj1 Hre).
        + apply Hi. left. reflexivity.
        + apply Hi. right. exact Hx.
        + apply Hf, Hx.
    Qed.

    Lemma lt_le l : StronglySorted Z.lt l -> StronglySorted Z.le l.
    Proof.
      induction 1 as [|a l Hs IH Hf]; constructor; auto. rewrite Forall_forall in *. intros x Hx. apply Z.lt_le_incl, Hf, Hx.
    Qed.

    (** Rows with distinct labels in the same label order are the same rows. *)
    Lemma rows_unique {A} (l l' : list (Z * A)) : NoDup (map fst l) -> Permutation l l' -> map fst l = map fst l' -> l = l'.
    Proof.
      intros Hnd Hp E. assert (Hall : forall x, In x l' -> In x l) by (intros x; apply Permutation_in, Permutation_sym, Hp).
      assert (G : forall k, nth_error l k = nth_error l' k).
      { intros k. destruct (nth_error l k) as [x|] eqn:E1, (nth_error l' k) as [y|] eqn:E2; auto.
        - assert (Ef : fst x = fst y).
          { apply (f_equal (fun z => nth_error z k)) in E. rewrite !nth_error_map, E1, E2 in E. cbn in E. congruence. }
          pose proof (Hall y (nth_error_In _ _ E2)) as Hy. apply In_nth_error in Hy. destruct Hy as [j Hj].
          assert (Ej : j = k).
          { apply (NoDup_nth_inj (map fst l) j k (fst y)); [exact Hnd| |]; rewrite nth_error_map; [rewrite Hj|rewrite E1]; cbn; congruence. }
          subst j. congruence.
        - apply nth_error_None in E2. assert (k < length l) by (apply nth_error_Some; congruence).
          apply Permutation_length in Hp. lia.
        - apply nth_error_None in E1. assert (k < length l') by (apply nth_error_Some; congruence).
          apply Permutation_length in Hp. lia. }
      apply nth_error_ext. exact G.
    Qed.

    Lemma bars_laws : existsb (Z.eqb 2) (map (fun b => law_code (mb_law b)) ms') = existsb (Z.eqb 2) (map (fun b => law_code (mb_law b)) ms).
    Proof.
      destruct Hby as [Hp HF].
      assert (G1 : forall b', In b' ms' -> exists b, In b ms /\ mb_law b' = mb_law b).
      { intros b' Hb. apply In_nth_error in Hb. destruct Hb as [k Hk]. clear - HF Hk Hlaw. revert k Hk.
        induction HF as [|i y q l (b & Hb & Hy) HF IH]; intros [|k] Hk; cbn in Hk; try discriminate; eauto.
        injection Hk as <-. exists b. split; [eapply nth_error_In; eauto|auto]. }
      assert (G2 : forall b, In b ms -> exists b', In b' ms' /\ mb_law b' = mb_law b).
      { intros b Hb. apply In_nth_error in Hb. destruct Hb as [i Hi].
        assert (Hin : In i p).
        { eapply Permutation_in; [apply Permutation_sym, Hp|]. apply in_seq. split; [lia|]. apply nth_error_Some. congruence. }
        clear - HF Hi Hin Hlaw. induction HF as [|i0 y q l (b0 & Hb & Hy) HF IH]; [contradiction|].
        destruct Hin as [->|Hin].
        - exists y. split; [left; reflexivity|]. assert (b0 = b) by congruence. subst b0. auto.
        - destruct (IH Hin) as (b' & A1 & A2). exists b'. split; [right; exact A1|exact A2]. }
      apply Bool.eq_iff_eq_true. rewrite !existsb_exists. split; intros (x & Hx & E); apply in_map_iff in Hx; destruct Hx as (b & <- & Hb).
      - destruct (G1 _ Hb) as (b' & A1 & A2). rewrite A2 in E. eexists. split; [apply in_map_iff; exists b'; split; [reflexivity|exact A1]|exact E].
      - destruct (G2 _ Hb) as (b' & A1 & A2). rewrite <- A2 in E. eexists. split; [apply in_map_iff; exists b'; split; [reflexivity|exact A1]|exact E].
    Qed.

    Lemma picks_repeat {A} (x : A) q n : (forall i, In i q -> i < n) -> picks q (repeat x n) (repeat x (length q)).
    Proof.
      induction q as [|i q IH]; intros H; [constructor|]. cbn [length repeat]. constructor.
      - rewrite nth_error_repeat. destruct (Nat.ltb_spec i n); auto. specialize (H i (or_introl eq_refl)). lia.
      - apply IH. intros j Hj. apply H. right. exact Hj.
    Qed.

    Lemma build_sim mb : build argsortZ m = Ok mb ->
      exists mb' c c', build argsortZ m' = Ok mb' /\ msim c c' ms p mb mb' /\
        truss_ok c ms /\ truss_ok c' ms' /\ c_ndof1 c' = c_ndof1 c /\ c_nstatev c' = c_nstatev c /\
        c_labels c' = map rho (c_labels c) /\ c_coords c' = map mv (c_coords c).
    Proof.
      intros H. pose proof Hd as (Dn & Db & Df & (eh0 & De & Dms) & D2 & Dnd & Dml & D3 & Dmem).
      pose proof Hd' as (Dn' & Db' & Df' & (eh0' & De' & Dms') & D2' & Dnd' & Dml' & D3' & Dmem').
      destruct (build_tables _ _ _ _ _ _ HA Dn Db Df Dnd D2 H)
        as (Mb & Mf & s1 & w & Hs1 & Hp1 & Hsort1 & Hb1 & Hw1 & Hw2 & Hw3 & Hf1 & Hel1).
      pose proof Hre as (Hk & Rn & Rb & Rf & Rs & Rb0 & Rw).
      assert (Hfe : exists fh0 fh0', m_forces m = Some fh0 /\ m_forces m' = Some fh0' /\ e_width fh0' = e_width fh0).
      { destruct (build_inv _ _ _ H) as (nh0 & eh & nh & bh & fh & D0 & D1 & an & _ & _ & _ & _ & Eo & _).
        destruct (m_forces m) as [h|]; [|discriminate]. destruct (m_forces m') as [h'|]; [|discriminate].
        cbn in Rw. injection Rw as Rw. eauto. }
      destruct Hfe as (fh0 & fh0' & Efh & Efh' & Ew).
      destruct (build_total argsortZ m' ns' bs' fs' HA Dn' Db' Df' Dnd' D2') as [mb' H'];
        [congruence|congruence|exact Rb0|exact D3'|eapply matches_renamed; eauto|eapply matches_renamed; eauto|].
      destruct (build_tables _ _ _ _ _ _ HA Dn' Db' Df' Dnd' D2' H')
        as (Mb' & Mf' & s2 & w' & Hs2 & Hp2 & Hsort2 & Hb2 & Hw1' & Hw2' & Hw3' & Hf2 & Hel2).
      assert (Eww : w' = w) by (rewrite <- (Hw2 _ Efh), <- (Hw2' _ Efh'); exact Ew). subst w'.
      assert (Es2 : s2 = renamed rho mv s1).
      { assert (Hpp : Permutation s2 (renamed rho mv s1)).
        { rewrite Hp2, Rn. unfold renamed. apply Permutation_map, Permutation_sym, Hp1. }
        apply rows_unique; auto.
        - eapply Permutation_NoDup; [apply Permutation_sym, Permutation_map, Hp2|exact Dnd'].
        - apply sorted_Z_unique; [apply Permutation_map, Hpp|apply lt_le, Hsort2|].
          rewrite renamed_fst. apply sorted_rho; [exact Hsort1|]. intros x. apply Permutation_in, Permutation_map, Hp1. }
      assert (Hin1 : forall l, In l (map fst s1) -> In l (map fst ns)).
      { intros l. apply Permutation_in, Permutation_map, Hp1. }
      assert (Erb : map snd (rows_for bs' [1;1;1]%Z (map fst s2)) = map snd (rows_for bs [1;1;1]%Z (map fst s1))).
      { rewrite Es2, renamed_fst. unfold rows_for. rewrite !map_map. apply map_ext_in. intros l Hl. cbn [snd].
        apply row_for_renamed; auto. apply Hin1. apply in_map_iff. exists l. split; [reflexivity|exact Hl]. }
      assert (Erf : map snd (rows_for fs' (repeat f0 w) (map fst s2)) = map snd (rows_for fs (repeat f0 w) (map fst s1))).
      { rewrite Es2, renamed_fst. unfold rows_for. rewrite !map_map. apply map_ext_in. intros l Hl. cbn [snd].
        apply row_for_renamed; auto. apply Hin1. apply in_map_iff. exists l. split; [reflexivity|exact Hl]. }
      assert (Hl12 : length s2 = length s1) by (rewrite Es2; unfold renamed; apply map_length).
      assert (Hls1 : length s1 = length ns) by (apply Permutation_length, Hp1).
      pose proof H as HB. pose proof H' as HB'.
      apply build_inv in H. apply build_inv in H'.
      destruct H as (nh0 & eh & nh & bh & fh & D0 & D1 & an & E1 & E2 & Ef & Eb & Eo & C1 & C2 & Hd0 & Hd1 & Han & Em).
      destruct H' as (nh0' & eh' & nh' & bh' & fh' & D0' & D1' & an' & E1' & E2' & Ef' & Eb' & Eo' & C1' & C2' & Hd0' & Hd1' & Han' & Em').
      cbv zeta in *. assert (eh0 = eh) by congruence. assert (eh0' = eh') by congruence. subst eh0 eh0'.
      pose proof (build_reached _ _ _ _ _ _ _ HA Hd HB) as (nhA & ehA & fhA & uA & nsA & A1 & A2 & A3 & A4 & _ & _ & _ & _ & Htr & _ & _ & _ & _ & _ & _ & _ & (Hsz & _)).
      pose proof (build_reached _ _ _ _ _ _ _ HA Hd' HB') as (nhB & ehB & fhB & uB & nsB & B1 & B2 & B3 & B4 & _ & _ & _ & _ & Htr' & _).
      assert (Hbl : length ms' = length ms).
      { destruct Hby as [Hpp HF]. apply Permutation_length in Hpp. rewrite seq_length in Hpp. rewrite <- Hpp.
        symmetry. eapply Forall2_len. exact HF. }
      assert (Ln : length (n_labels nh0') = length (n_labels nh0)).
      { rewrite E1 in Dn. rewrite E1' in Dn'. destruct Dn as [-> _], Dn' as [-> _]. rewrite !map_length.
        rewrite <- (Permutation_length Hp2), <- (Permutation_length Hp1). exact Hl12. }
      assert (Le : length (el_labels eh) = length ms) by (destruct Dms as (-> & _); apply map_length).
      assert (Le' : length (el_labels eh') = length ms) by (destruct Dms' as (-> & _); rewrite map_length; exact Hbl).
      assert (Hmt : existsb (Z.eqb 2) (el_mtype eh') = existsb (Z.eqb 2) (el_mtype eh)).
      { destruct Dms as (_ & _ & -> & _), Dms' as (_ & _ & -> & _). apply bars_laws. }
      rewrite Em in Hb1, Hf1, Hs1. rewrite Em' in Hb2, Hf2, Hs2. cbn [m_bounds m_forces m_nodes] in *.
      assert (Euv : uv_flatten (b_vals bh') = uv_flatten (b_vals bh)).
      { destruct Hb1 as [_ Hb1], Hb2 as [_ Hb2].
        destruct (b_vals bh) as [l1|w1 r1].
        { destruct Hb1 as (n & Hb1). apply (f_equal (@length _)) in Hb1. unfold rows_for in Hb1. rewrite !map_length in Hb1. cbn in Hb1. lia. }
        destruct (b_vals bh') as [l2|w2 r2].
        { destruct Hb2 as (n & Hb2). apply (f_equal (@length _)) in Hb2. unfold rows_for in Hb2. rewrite !map_length in Hb2. cbn in Hb2. lia. }
        destruct Hb1 as [-> _], Hb2 as [-> _]. cbn. rewrite Erb. reflexivity. }
      assert (Erows : e_rows fh' = e_rows fh).
      { destruct Hf1 as (_ & -> & _), Hf2 as (_ & -> & _). exact Erf. }
      rewrite Euv, Ln in Hd0', Hd1'. assert (D0' = D0) by congruence. assert (D1' = D1) by congruence. subst D0' D1'.
      rewrite Ln, Le', Hmt, Rs in Han'. rewrite Le in Han. assert (an' = an) by congruence. subst an'.
      exists mb', (ctx_of mb uA nhA ehA), (ctx_of mb' uB nhB ehB).
      rewrite Em in A1, A2, A3, A4. rewrite Em' in B1, B2, B3, B4. cbn [m_nodes m_elems m_forces m_built] in *.
      injection A1 as <-. injection A2 as <-. injection A3 as <-. injection A4 as <-.
      injection B1 as <-. injection B2 as <-. injection B3 as <-. injection B4 as <-.
      assert (Hsame : forall a : AN, a_stretch a = repeat f0 (length ms) -> a_force a = repeat f0 (length ms) -> a_stress a = repeat f0 (length ms) ->
                 (a_state a = None \/ exists row, a_state a = Some (repeat row (length ms))) -> same_result p a a).
      { intros a Q1 Q2 Q3 Q4. unfold same_result. do 18 (split; [reflexivity|]). rewrite Q1, Q2, Q3.
        assert (Hlt : forall i, In i p -> i < length ms).
        { intros i Hi. destruct Hby as [Hpp _]. eapply Permutation_in in Hi; [|exact Hpp]. apply in_seq in Hi. lia. }
        assert (Hpl : length p = length ms).
        { destruct Hby as [Hpp _]. apply Permutation_length in Hpp. rewrite seq_length in Hpp. exact Hpp. }
        assert (G : forall B (x : B), picks p (repeat x (length ms)) (repeat x (length ms))).
        { intros B x. pose proof (picks_repeat x p (length ms) Hlt) as G. rewrite Hpl in G. exact G. }
        do 3 (split; [apply G|]). destruct Q4 as [->|[row ->]]; [exact Logic.I|split; [reflexivity|apply G]]. }
      assert (Hann : a_stretch an = repeat f0 (length ms) /\ a_force an = repeat f0 (length ms) /\ a_stress an = repeat f0 (length ms) /\
                 (a_state an = None \/ exists row, a_state an = Some (repeat row (length ms)))).
      { unfold analysis_build in Han. apply bind_ok in Han. destruct Han as (ur & _ & Han). injection Han as <-. cbn.
        repeat split. destruct (0 <? _)%Z; eauto. }
      destruct Hann as (Q1 & Q2 & Q3 & Q4).
      split; [exact HB'|]. split; [|split; [exact Htr|split; [exact Htr'|]]].
      - subst mb mb'. split; [cbn; rewrite Hmt, Rs; reflexivity|]. do 8 eexists. cbn [m_built m_nodes m_elems m_forces].
        do 8 (split; [reflexivity|]). split; [exact Erows|]. do 2 (split; [reflexivity|]).
        cbn [u_an u_R u_lpf_end]. split; [split; [apply Hsame; assumption|exact Hsz]|].
        split; [|split; [reflexivity|split; [exact Ln|reflexivity]]].
        constructor; [|constructor]. rewrite Erows, Ln. split; [apply Hsame; assumption|exact Hsz].
      - subst mb mb'. unfold ctx_of. cbn. rewrite Hmt, Rs. do 2 (split; [reflexivity|]).
        destruct Hs1 as [-> ->], Hs2 as [-> ->]. rewrite Es2, renamed_fst. split; [reflexivity|].
        unfold renamed. rewrite !map_map. reflexivity.
    Qed.
  End Build.

  Lemma an_ext (a b : AN) : same_result (seq 0 (length (a_stretch a))) a b ->
    length (a_force a) = length (a_stretch a) -> length (a_stress a) = length (a_stretch a) ->
    b = a.
  Proof.
    intros (E1 & E2 & E3 & E4 & E5 & E6 & E7 & E8 & E9 & E10 & E11 & E12 & E13 & E14 & E15 & E16 & E17 & E18 & P1 & P2 & P3 & P4) L1 L2.
    apply picks_seq in P1. rewrite <- L1 in P2. apply picks_seq in P2. rewrite <- L2 in P3. apply picks_seq in P3.
    assert (E : a_state b = a_state a).
    { destruct (a_state a) as [sv|], (a_state b) as [sv'|]; try contradiction; auto. f_equal.
      destruct P4 as [El P4]. pose proof (picks_length _ _ _ P4) as El'. rewrite seq_length in El'.
      rewrite <- El', El in P4. apply picks_seq in P4. exact P4. }
    clear P4 L1 L2. destruct a, b. cbn in *. subst. reflexivity.
  Qed.

  Theorem same_play rho mv m m' ns ns' ms ms' bs bs' fs fs' bar p acts m1 out :
    argsort_ok argsortZ -> described m ns ms bs fs -> described m' ns' ms' bs' fs' ->
    redrawn rho mv m m' ns ns' bs bs' fs fs' -> bars_by bar p ms ms' ->
    (forall b b', bar b b' -> mb_law b' = mb_law b) ->
    (forall c c', truss_ok c ms -> c_labels c' = map rho (c_labels c) -> c_coords c' = map mv (c_coords c) ->
       (forall x y, In x (c_labels c) -> In y (c_labels c) -> rho x = rho y -> x = y) ->
       forall b b', In b ms -> bar b b' -> alike c c' b b') ->
    (forall c, order_free c ms p) ->
    build_and_play argsortF solve argsortZ m acts = Ok (m1, out) ->
    exists m1' c c', build_and_play argsortF solve argsortZ m' acts = Ok (m1', out) /\ msim c c' ms p m1 m1'.
  Proof.
    intros HA Hd Hd' Hre Hby Hlaw Hal Hord H. unfold build_and_play in *.
    apply bind_ok in H. destruct H as (mb & Hb & H).
    destruct (build_sim rho mv m m' ns ns' ms ms' bs bs' fs fs' bar p HA Hd Hd' Hre Hby Hlaw mb Hb)
      as (mb' & c & c' & Hb' & HM & Htr & Htr' & N1 & Ns & Hlab & Hco).
    rewrite Hb'. cbn [bind].
    assert (Hinc : forall x, In x (c_labels c) -> In x (map fst ns)).
    { destruct HM as (_ & u & u' & nh & nh' & eh & eh' & fh & fh' & Eu & _ & En & _ & _ & _ & _ & _ & _ & -> & _).
      cbn. intros x Hx. pose proof Hd as (Dn & Db & Df & _ & D2 & Dnd & _).
      destruct (build_tables _ _ _ _ _ _ HA Dn Db Df Dnd D2 Hb) as (_ & _ & s1 & w & Hs1 & Hp1 & _).
      rewrite En in Hs1. destruct Hs1 as [E _]. rewrite E in Hx.
      eapply Permutation_in; [apply Permutation_map, Hp1|exact Hx]. }
    assert (Hbars : bars_by (alike c c') p ms ms').
    { destruct Hby as [Hpp HF]. split; [exact Hpp|].
      refine (Forall2_mono _ _ _ _ _ HF). intros i b' (b & Eb & Hbb). exists b. split; [exact Eb|].
      apply Hal; auto; [|eapply nth_error_In; eauto].
      intros x y Hx Hy. eapply (rho_inj rho mv m m' ns ns' bs bs' fs fs'); eauto. }
    destruct (play_sim c c' ms ms' p Htr Htr' N1 Ns ltac:(rewrite Hlab; apply map_length) Hbars (Hord c) acts mb mb' m1 out HM H)
      as (m1' & Hm1' & HM1).
    exists m1', c, c'. split; [exact Hm1'|exact HM1].
  Qed.
End Run.
