(** * Runs of two models whose evaluations agree, for any relation between the analysis objects *)
From Coq Require Import List ZArith Bool Arith Lia.
Import ListNotations.
From Verif Require Import Num Vec Handlers Material Analysis Truss Equil Solver Run ListFacts SpecMech SpecBuild
  BuildFacts EquilFacts SpecState FrameFacts EvalFacts SpecRun ReachFacts SpecSame SimFacts SameFacts SameRun.

Section Sim.
  Context {F : Type} `{NF : Num F}.
  Variable argsortF : list F -> list nat.
  Variable solve : list (list F) -> list F -> list F.
  Notation AN := (analysis F).
  Variables c c' : ctx F.
  Variable Sm : AN -> AN -> Prop.

  Definition set_closed : Prop := forall a a', Sm a a' ->
    (forall v, Sm (set_j v a) (set_j v a')) /\ (forall v, Sm (set_Kmod v a) (set_Kmod v a')) /\
    (forall v, Sm (set_dVmax v a) (set_dVmax v a')) /\ (forall v, Sm (set_lpf v a) (set_lpf v a')) /\
    (forall v, Sm (set_Ured v a) (set_Ured v a')) /\ (forall v, Sm (set_Vred v a) (set_Vred v a')) /\
    (forall v, Sm (set_step v a) (set_step v a')) /\ (forall v, Sm (set_f0red v a) (set_f0red v a')) /\
    (forall v, Sm (set_fconst v a) (set_fconst v a')) /\ (forall v, Sm (set_forces v a) (set_forces v a')) /\
    Sm (set_U0 (a_U a) a) (set_U0 (a_U a') a').

  Definition fields_same : Prop := forall a a', Sm a a' ->
    a_f0red a' = a_f0red a /\ a_DOF1 a' = a_DOF1 a /\ a_Ured a' = a_Ured a /\ a_Vred a' = a_Vred a /\ a_lpf a' = a_lpf a.

  Hypothesis Hset : set_closed.
  Hypothesis Hfld : fields_same.
  Hypothesis Hg : forall V V0 w a a' b x, Sm a a' -> equilibrium c V V0 w a = Ok (b, x) ->
    exists b', equilibrium c' V V0 w a' = Ok (b', x) /\ Sm b b'.
  Hypothesis Hk : forall V a a' b x, Sm a a' -> stiffness c V a = Ok (b, x) ->
    exists b', stiffness c' V a' = Ok (b', x) /\ Sm b b'.

  Lemma gpath_sim Ured a a' d j jpre cfg fuel t : Sm a a' ->
    pathfollow solve argsortF (equilibrium c) (stiffness c) Ured a d j jpre cfg fuel = Ok t ->
    exists t', pathfollow solve argsortF (equilibrium c') (stiffness c') Ured a' d j jpre cfg fuel = Ok t' /\ pf_sim Sm t t'.
  Proof.
    intros HS H. revert H.
    apply (pathfollow_sim solve argsortF (equilibrium c) (equilibrium c') (stiffness c) (stiffness c') Sm);
      try (intros v x x' Hx; apply (Hset _ _ Hx)).
    - intros V V0 w x x' Hx b y E. eapply Hg; eauto.
    - intros V x x' Hx b y E. eapply Hk; eauto.
    - intros x x' Hx. apply (Hfld _ _ Hx).
    - exact HS.
  Qed.

  Definition grs_sim (s s' : runst F) : Prop :=
    Sm (r_an s) (r_an s') /\ Forall2 Sm (r_R s) (r_R s') /\
    r_lpf_end s' = r_lpf_end s /\ r_out s' = r_out s.

  Lemma grecs l l' : Forall2 (rec_sim Sm) l l' -> Forall2 Sm (map snd l) (map snd l').
  Proof. induction 1 as [|u v l l' [_ Hu] H IH]; cbn [map]; constructor; auto. Qed.

  Lemma gwrites (l l' : list AN) : Forall2 Sm l l' -> forall R0 R0' : list AN, Forall2 Sm R0 R0' ->
    Forall2 Sm (fold_left write_result l R0) (fold_left write_result l' R0').
  Proof.
    induction 1 as [|x y l l' Hx H IH]; intros R0 R0' HR0; cbn [fold_left]; auto.
    apply IH. unfold write_result. apply Forall2_app; [apply Forall2_removelast, HR0|]. constructor; [exact Hx|]. constructor; [exact Hx|constructor].
  Qed.

  Lemma grun_step_sim st rows nsteps fuel s s' step t : grs_sim s s' ->
    run_step argsortF solve c st rows nsteps fuel s step = Ok t ->
    exists t', run_step argsortF solve c' st rows nsteps fuel s' step = Ok t' /\ grs_sim t t'.
  Proof.
    intros (S1 & SR & EL & EO) H. unfold run_step in *.
    apply bind_ok in H. destruct H as (incs & -> & H). cbn [bind].
    apply bind_ok in H. destruct H as (xl & -> & H). cbn [bind].
    apply bind_ok in H. destruct H as (an & Han & H).
    assert (G : exists an', step_setup rows step s' = Ok an' /\ Sm an an').
    { unfold step_setup in *. rewrite EL. apply bind_ok in Han. destruct Han as (fc & -> & Han). cbn [bind].
      assert (ED : a_DOF1 (r_an s') = a_DOF1 (r_an s)) by apply (Hfld _ _ S1). rewrite ED.
      cbv zeta in *. apply bind_ok in Han. destruct Han as (fr & -> & Han). cbn [bind]. injection Han as <-.
      eexists. split; [reflexivity|].
      apply (Hset (set_f0red _ _)), (Hset (set_forces _ _)), (Hset (set_fconst _ _)), Hset, S1. }
    destruct G as (an' & -> & San). cbn [bind].
    assert (EU : a_Ured an' = a_Ured an) by apply (Hfld _ _ San). rewrite EU.
    apply bind_ok in H. destruct H as (pf & Hpf & H).
    destruct (gpath_sim _ _ _ _ _ _ _ _ _ San Hpf) as (pf' & Hpf' & PS).
    change (fun V V0 w a => equilibrium c' V V0 w a) with (equilibrium c').
    change (fun U a => stiffness c' U a) with (stiffness c'). rewrite Hpf'. cbn [bind].
    destruct PS as (PA & _ & _ & _ & _ & _ & PR & PO). cbv zeta in *.
    assert (HR1 : Forall2 Sm (fold_left write_result (map snd (tl (ps_res pf))) (r_R s))
                             (fold_left write_result (map snd (tl (ps_res pf'))) (r_R s'))).
    { assert (HT : Forall2 Sm (map snd (tl (ps_res pf))) (map snd (tl (ps_res pf')))).
      { destruct PR as [|x y l l' _ Hl]; [constructor|]. cbn [tl]. apply grecs, Hl. }
      apply gwrites; assumption. }
    set (R1 := fold_left write_result (map snd (tl (ps_res pf))) (r_R s)) in *.
    set (R1' := fold_left write_result (map snd (tl (ps_res pf'))) (r_R s')) in *.
    assert (HR2 : Forall2 Sm (copy_U_last R1) (copy_U_last R1')).
    { unfold copy_U_last. destruct (Forall2_rev' _ _ _ HR1) as [|x y l l' Hx _]; [constructor|].
      apply Forall2_app; [apply Forall2_removelast, HR1|]. constructor; [|constructor]. apply (Hset _ _ Hx). }
    apply bind_ok in H. destruct H as (lpf & Hlpf & H).
    assert (Hl' : match rev (copy_U_last R1') with [] => Err IndexError | a :: _ => Ok (a_lpf a) end = Ok lpf).
    { destruct (Forall2_rev' _ _ _ HR2) as [|x y l l' Hx _]; [discriminate|].
      injection Hlpf as <-. f_equal. apply (Hfld _ _ Hx). }
    rewrite Hl'. cbn [bind]. rewrite EL, EO, PO.
    destruct (Nat.ltb (step + 1) nsteps).
    - injection H as <-. eexists. split; [reflexivity|]. unfold grs_sim. cbn [r_an r_R r_lpf_end r_out]. split; [|auto].
      assert (E : a_Vred (ps_an pf') = a_Vred (ps_an pf)) by apply (Hfld _ _ PA). rewrite E.
      apply (Hset (set_Vred _ _)), Hset, PA.
    - injection H as <-. eexists. split; [reflexivity|]. unfold grs_sim. cbn [r_an r_R r_lpf_end r_out]. split; [exact PA|].
      split; [apply Forall2_removelast, HR2|auto].
  Qed.

  Lemma gsteps_sim st rows nsteps fuel l : forall s s' t, grs_sim s s' ->
    foldM (run_step argsortF solve c st rows nsteps fuel) l s = Ok t ->
    exists t', foldM (run_step argsortF solve c' st rows nsteps fuel) l s' = Ok t' /\ grs_sim t t'.
  Proof.
    induction l as [|k l IH]; intros s s' t HS H; cbn [foldM] in *.
    - injection H as <-. eauto.
    - apply bind_ok in H. destruct H as (s1 & H1 & H).
      destruct (grun_step_sim _ _ _ _ _ _ _ _ HS H1) as (s1' & -> & S1). cbn [bind]. eapply IH; eassumption.
  Qed.

  Definition gmsim (m m' : model F) : Prop :=
    m_set m' = m_set m /\
    exists u u' nh nh' eh eh' fh fh', m_built m = Some u /\ m_built m' = Some u' /\
      m_nodes m = Some nh /\ m_nodes m' = Some nh' /\ m_elems m = Some eh /\ m_elems m' = Some eh' /\
      m_forces m = Some fh /\ m_forces m' = Some fh' /\ e_rows fh' = e_rows fh /\
      c = ctx_of m u nh eh /\ c' = ctx_of m' u' nh' eh' /\
      Sm (u_an u) (u_an u') /\ Forall2 Sm (u_R u) (u_R u') /\ u_lpf_end u' = u_lpf_end u /\
      u_nnodes u' = u_nnodes u /\ u_ndof1 u' = u_ndof1 u.

  Lemma grun_sim m m' fuel m1 out : gmsim m m' -> run argsortF solve m fuel = Ok (m1, out) ->
    exists m1', run argsortF solve m' fuel = Ok (m1', out) /\ gmsim m1 m1'.
  Proof.
    intros (Es & u & u' & nh & nh' & eh & eh' & fh & fh' & Eu & Eu' & En & En' & Ee & Ee' & Ef & Ef' & Er & Ec & Ec' & HS & HR & HL & HN & HN1) H.
    unfold run in *. cbv zeta in *. rewrite Es, Eu', En', Ee', Ef'. rewrite Eu, En, Ee, Ef in H.
    destruct (_ && _); [discriminate|]. destruct (_ && _ && _); [discriminate|].
    assert (HR0 : Forall2 Sm (u_R u) (u_R u')) by exact HR.
    destruct HR as [|r0 r0' rest rest' Hr0 Hrest]; [discriminate|].
    assert (HA : Sm (set_lpf f0 (set_Vred (a_Ured (u_an u) ++ [f0]) (u_an u)))
                    (set_lpf f0 (set_Vred (a_Ured (u_an u') ++ [f0]) (u_an u')))).
    { assert (E : a_Ured (u_an u') = a_Ured (u_an u)) by apply (Hfld _ _ HS). rewrite E.
      apply (Hset (set_Vred _ _)), Hset, HS. }
    assert (E1 : Ctx (n_labels nh) (n_coords nh) eh (u_nnodes u) (u_ndof1 u) (s_nstatev (m_set m)) = c) by (symmetry; exact Ec).
    assert (E2 : Ctx (n_labels nh') (n_coords nh') eh' (u_nnodes u') (u_ndof1 u') (s_nstatev (m_set m)) = c').
    { rewrite <- Es. symmetry. exact Ec'. }
    rewrite E1 in H. rewrite E2, Er.
    apply bind_ok in H. destruct H as (s & H1 & H).
    edestruct gsteps_sim as (s' & Hs' & SS); [|exact H1|].
    2:{ rewrite Hs'. cbn [bind]. injection H as <- <-. destruct SS as (A1 & A2 & A3 & A4). rewrite A4.
        eexists. split; [reflexivity|]. split; [reflexivity|].
        do 8 eexists. cbn [m_built m_nodes m_elems m_forces].
        do 8 (split; [reflexivity|]). split; [exact Er|].
        split; [symmetry; exact E1|]. split; [symmetry; exact E2|]. cbn. repeat (split; [assumption|]). assumption. }
    unfold grs_sim. cbn [r_an r_R r_lpf_end r_out]. rewrite HL. split; [exact HA|]. split; [|auto]. constructor; auto.
  Qed.

  Lemma gplay_sim acts : forall m m' m1 out, gmsim m m' -> play argsortF solve acts m = Ok (m1, out) ->
    exists m1', play argsortF solve acts m' = Ok (m1', out) /\ gmsim m1 m1'.
  Proof.
    induction acts as [|[fuel|st] acts IH]; intros m m' m1 out HS H; cbn [play] in *.
    - injection H as <- <-. eauto.
    - apply bind_ok in H. destruct H as ([m2 o2] & H1 & H).
      destruct (grun_sim _ _ _ _ _ HS H1) as (m2' & -> & S2). cbn [bind].
      apply bind_ok in H. destruct H as ([m3 o3] & H2 & H).
      destruct (IH _ _ _ _ S2 H2) as (m3' & -> & S3). cbn [bind]. injection H as <- <-. eauto.
    - eapply IH; [|exact H]. destruct HS as (Es & u & u' & nh & nh' & eh & eh' & fh & fh' & Rest). rewrite Es.
      split; [reflexivity|]. exists u, u', nh, nh', eh, eh', fh, fh'.
      destruct Rest as (Eu & Eu' & En & En' & Ee & Ee' & Ef & Ef' & Er & Ec & Ec' & HS).
      cbn [m_built m_nodes m_elems m_forces with_settings]. do 9 (split; [assumption|]).
      split; [exact Ec|]. split; [|exact HS]. rewrite Ec'. unfold ctx_of. cbn. rewrite Es. reflexivity.
  Qed.
End Sim.
