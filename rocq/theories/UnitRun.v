(** * Sessions in another unit of force *)
From Coq Require Import List ZArith Bool Arith Lia Reals Lra.
Import ListNotations.
From Verif Require Import Num NumR Vec Handlers Material Analysis Truss Equil Solver Run ListFacts SpecRun SpecSame SpecUnit MirrorFacts MirrorRun TolFacts UnitFacts UnitPath.
Local Open Scope R_scope.

Lemma ten_pos k : 0 < ten k.
Proof. unfold ten. apply powerRZ_lt. lra. Qed.
Lemma tolerance_unit n k : @pow10neg R _ (n - k) = ten k * pow10neg n.
Proof. rewrite !pow10neg_R. unfold ten. rewrite <- powerRZ_add by lra. f_equal. lia. Qed.

Section Run.
  Variable k : Z.
  Notation t := (ten k).
  Notation sc := (map (Rmult t)).
  Variable argsortF : list R -> list nat.
  Variable argsortZ : list Z -> list nat.
  Variable solve : list (list R) -> list R -> list R.
  Hypothesis Hfree : scale_free solve.
  Hypothesis Hctrl : keeps_control solve.
  Let Ht : 0 < t := ten_pos k.

  (** ** Load tables *)
  Lemma block_unit s rows : block s (map sc rows) = map sc (block s rows).
  Proof. unfold block. rewrite !map_map. apply map_ext. intros r. rewrite skipn_map, firstn_map. reflexivity. Qed.
  Lemma add_scaled_unit acc l blk r : add_scaled acc l blk = Ok r -> add_scaled (map sc acc) l (map sc blk) = Ok (map sc r).
  Proof.
    unfold add_scaled. destruct (forallb _ (combine acc blk)) eqn:E; [|discriminate]. intros H. injection H as <-.
    assert (G : forallb (fun p => Nat.eqb (length (fst p)) (length (snd p))) (combine (map sc acc) (map sc blk)) = true /\
      map2 (fun a b => map2 (fun x y => (x + l * y)%num) a b) (map sc acc) (map sc blk) = map sc (map2 (fun a b => map2 (fun x y => (x + l * y)%num) a b) acc blk)).
    { revert blk E. induction acc as [|a acc IH]; intros [|b blk] E; cbn [map map2 combine forallb fst snd] in *; try (split; reflexivity).
      apply andb_prop in E. destruct E as [E1 E2]. destruct (IH blk E2) as (I1 & I2). rewrite !map_length, E1, I1, I2. split; [reflexivity|]. f_equal.
      clear. revert b. induction a as [|x a IH]; intros [|y b]; try reflexivity. cbn. rewrite IH. numR. f_equal. ring. }
    destruct G as (G1 & G2). rewrite G1, G2. reflexivity.
  Qed.
  Lemma const_forces_unit rows ends step fc : const_forces rows ends step = Ok fc -> const_forces (map sc rows) ends step = Ok (map sc fc).
  Proof.
    intros H. unfold const_forces in *.
    eapply (foldM_rel (fun a a' => a' = map sc a) _ (fun acc s => match nth_error ends s with None => Err IndexError | Some l => add_scaled acc l (block s (map sc rows)) end)) with
      (x := map (map (fun _ => f0)) (block step (map sc rows))) in H.
    - destruct H as (y & Hy & ->). exact Hy.
    - intros a' y a s _ -> Hs. cbn beta in *. destruct (nth_error ends s); [|discriminate]. rewrite block_unit.
      rewrite (add_scaled_unit _ _ _ _ Hs). eauto.
    - rewrite block_unit, !map_map. apply map_ext. intros r. rewrite !map_map. apply map_ext. intros x. numR. ring.
  Qed.

  (** ** Steps *)
  Variable D1 : list nat.
  Notation n := (length D1).
  Notation Uni := (Uni t D1).
  Notation uctx := (uctx t).

  Ltac open_uni HM := let H := fresh in destruct HM as ((?HD & ?HLU) & H); unfold rescaled_result in H;
    destruct H as (?Estep & ?ED0 & ?ED1 & ?EU & ?EU0 & ?EUr & ?EVr & ?Elpf & ?EdV & ?Ej & ?Estr & ?Er & ?Eg & ?EK & ?EKr & ?Ef0 & ?Efrc & ?Ests & ?Est & ?Efc & ?Efo).
  Ltac close_uni := split; [split; assumption|]; unfold rescaled_result;
    cbn [a_step a_U a_U0 a_r a_g a_K a_stretch a_force a_stress a_DOF0 a_DOF1 a_Ured a_Vred a_lpf a_state a_dVmax a_j a_Kred a_Kmod a_f0red a_fconst a_forces
         set_step set_U set_U0 set_r set_g set_K set_stretch set_force set_stress set_Ured set_Vred set_lpf set_state set_dVmax set_j set_Kred set_Kmod set_f0red set_fconst set_forces];
    repeat (split; [first [assumption|reflexivity|congruence|idtac]|]); try first [assumption|reflexivity|congruence].

  Lemma setup_unit rows step an an' R0 R0' ends out b : Uni an an' -> step_setup rows step (Rs an R0 ends out) = Ok b ->
    exists b', step_setup (map sc rows) step (Rs an' R0' ends out) = Ok b' /\ Uni b b'.
  Proof.
    intros HM H. unfold step_setup in *. cbn [r_an r_lpf_end] in *. cbv zeta in *. apply bind_ok in H. destruct H as (fc & Hfc & H).
    rewrite (const_forces_unit _ _ _ _ Hfc). cbn [bind]. apply bind_ok in H. destruct H as (f0r & Hf & H). injection H as <-.
    open_uni HM. rewrite HD in Hf. rewrite block_unit, concat_unit, ED1, HD, gather_map_ok, Hf. cbn [bind].
    eexists. split; [reflexivity|]. close_uni.
  Qed.

  Definition run_uni (s s' : runst R) : Prop :=
    Uni (r_an s) (r_an s') /\ Forall2 Uni (r_R s) (r_R s') /\ r_lpf_end s' = r_lpf_end s /\ r_out s' = r_out s.

  Lemma path_uni c a a' d j jpre cfg fuel q : Uni a a' ->
    pathfollow solve argsortF (fun V V0 w a => equilibrium c V V0 w a) (fun U a => stiffness c U a) (a_Ured a) a d j jpre cfg fuel = Ok q ->
    exists q', pathfollow solve argsortF (fun V V0 w a => equilibrium (uctx c) V V0 w a) (fun U a => stiffness (uctx c) U a) (a_Ured a') a' d j jpre (rescaled_cfg t cfg) fuel = Ok q' /\
      pf_unit Uni q q'.
  Proof.
    intros HM H. assert (EU : a_Ured a' = a_Ured a) by (clear - HM; open_uni HM; exact EUr). rewrite EU.
    eapply (pathfollow_unit t Ht solve argsortF (fun V V0 w a => equilibrium c V V0 w a) (fun V V0 w a => equilibrium (uctx c) V V0 w a)
      (fun U a => stiffness c U a) (fun U a => stiffness (uctx c) U a) Uni n Hfree Hctrl) with (a := a); try assumption.
    - intros V V0 w x x' y gr Hx Hy. apply (equilibrium_unit t Ht D1 _ _ _ _ _ _ _ _ Hx Hy).
    - intros V x x' y K Hx Hy. apply (stiffness_unit t Ht D1 _ _ _ _ _ _ Hx Hy).
    - clear. intros j a a' HM. open_uni HM. close_uni.
    - clear. intros v v' a a' HM. open_uni HM. close_uni.
    - clear. intros v a a' HM. open_uni HM. close_uni.
    - clear. intros v a a' HM. open_uni HM. close_uni.
    - clear. intros v a a' HL HM. open_uni HM. close_uni.
    - clear. intros v a a' HM. open_uni HM. close_uni.
    - clear. intros a a' HM. open_uni HM. exact Ef0.
    - apply HM.
  Qed.

  Lemma write_uni R0 R0' l l' : Forall2 Uni R0 R0' -> Forall2 Uni l l' ->
    Forall2 Uni (fold_left write_result l R0) (fold_left write_result l' R0').
  Proof.
    intros HR H. revert R0 R0' HR. induction H as [|a a' l l' Ha H IH]; intros R0 R0' HR; cbn [fold_left]; [exact HR|].
    apply IH. unfold write_result. apply Forall2_app; [apply Forall2_removelast, HR|]. auto.
  Qed.
  Lemma copy_U_uni R0 R0' : Forall2 Uni R0 R0' -> Forall2 Uni (copy_U_last R0) (copy_U_last R0').
  Proof.
    intros H. unfold copy_U_last. pose proof (Forall2_rev' _ _ _ H) as Hr. destruct Hr as [|a a' l l' Ha _]; [constructor|].
    apply Forall2_app; [apply Forall2_removelast, H|]. constructor; [|constructor]. clear - Ha. open_uni Ha. close_uni.
  Qed.

  Lemma run_step_unit c st rows nsteps fuel s s' step q : run_uni s s' ->
    run_step argsortF solve c st rows nsteps fuel s step = Ok q ->
    exists q', run_step argsortF solve (uctx c) (rescaled_settings k st) (map sc rows) nsteps fuel s' step = Ok q' /\ run_uni q q'.
  Proof.
    intros HS H. destruct s as [an R0 ends out], s' as [an' R0' ends' out']. destruct HS as (HM & HR & E1 & E2). cbn [r_an r_R r_lpf_end r_out] in *. subst ends' out'.
    unfold run_step in *. cbn [rescaled_settings s_incs s_xlimit s_du s_dlpf s_j0 s_jpre r_an r_R r_lpf_end r_out] in *.
    apply bind_ok in H. destruct H as (incs & -> & H). cbn [bind]. apply bind_ok in H. destruct H as (xl & -> & H). cbn [bind].
    apply bind_ok in H. destruct H as (an1 & Han & H). destruct (setup_unit _ _ _ _ _ R0' _ _ _ HM Han) as (an1' & -> & HM1). cbn [bind].
    apply bind_ok in H. destruct H as (pf & Hpf & H).
    destruct (path_uni _ _ _ _ _ _ _ _ _ HM1 Hpf) as (pf' & Hpf' & P1 & P2 & P3 & P4 & P5 & P6 & P7 & P8).
    replace (pf_config (rescaled_settings k st) xl incs) with (rescaled_cfg t (pf_config st xl incs))
      by (unfold pf_config, rescaled_cfg, rescaled_settings; cbn; rewrite tolerance_unit; reflexivity).
    rewrite Hpf'. cbn [bind]. cbv zeta in *.
    assert (HR1 : Forall2 Uni (map snd (tl (ps_res pf))) (map snd (tl (ps_res pf')))).
    { clear - P7. assert (HT : Forall2 (rec_unit Uni) (tl (ps_res pf)) (tl (ps_res pf'))) by (destruct P7; [constructor|assumption]).
      induction HT as [|x y l l' Hx HT IH]; cbn; constructor; [apply Hx|exact IH]. }
    pose proof (copy_U_uni _ _ (write_uni _ _ _ _ HR HR1)) as HR2.
    set (R2 := copy_U_last (fold_left write_result (map snd (tl (ps_res pf))) R0)) in *.
    set (R2' := copy_U_last (fold_left write_result (map snd (tl (ps_res pf'))) R0')) in *.
    apply bind_ok in H. destruct H as (lpf & Hl & H).
    assert (Hl' : match rev R2' with [] => Err IndexError | a :: _ => Ok (a_lpf a) end = Ok lpf).
    { pose proof (Forall2_rev' _ _ _ HR2) as Hr. destruct Hr as [|a a' l l' Ha _]; [discriminate|]. injection Hl as <-. f_equal. apply Ha. }
    rewrite Hl'. cbn [bind]. rewrite P8. destruct (Nat.ltb (step + 1) nsteps); injection H as <-; (eexists; split; [reflexivity|]); unfold run_uni; cbn [r_an r_R r_lpf_end r_out].
    - split; [|split; [exact HR2|split; reflexivity]]. clear - P1. open_uni P1. close_uni.
    - split; [exact P1|]. split; [apply Forall2_removelast, HR2|]. split; reflexivity.
  Qed.

  (** ** Models *)
  Definition model_uni (m m' : model R) : Prop :=
    exists u u' nh eh fh bh, m_built m = Some u /\ m_built m' = Some u' /\
      m_nodes m = Some nh /\ m_nodes m' = Some nh /\
      m_elems m = Some eh /\ m_elems m' = Some (rescaled_elems t eh) /\ m_bounds m = Some bh /\ m_bounds m' = Some bh /\
      m_forces m = Some fh /\ m_forces m' = Some (rescaled_forces t fh) /\
      m_set m' = rescaled_settings k (m_set m) /\
      u_nnodes u' = u_nnodes u /\ u_ndof1 u' = u_ndof1 u /\ Uni (u_an u) (u_an u') /\
      Forall2 Uni (u_R u) (u_R u') /\ u_lpf_end u' = u_lpf_end u.

  Lemma run_unit m m' fuel m1 out : model_uni m m' -> run argsortF solve m fuel = Ok (m1, out) ->
    exists m1', run argsortF solve m' fuel = Ok (m1', out) /\ model_uni m1 m1'.
  Proof.
    intros (u & u' & nh & eh & fh & bh & B & B' & N1 & N2 & E1 & E2 & Bd & Bd' & F1 & F2 & Es & Q1 & Q2 & HM & HR & HL) H.
    unfold run in *. cbv zeta in *. rewrite Es. cbn [rescaled_settings s_log s_j0 s_stepcontrol s_reduce s_nstatev s_nsteps].
    destruct (_ && _)%bool; [discriminate|]. destruct (_ && _)%bool; [discriminate|].
    rewrite B, N1, E1, F1 in H. rewrite B', N2, E2, F2. cbn [rescaled_forces e_rows].
    destruct HR as [|r0 r0' R0 R0' Hr0 HR]; [discriminate|].
    apply bind_ok in H. destruct H as (s & Hs & H). injection H as <- <-.
    set (c := Ctx (n_labels nh) (n_coords nh) eh (u_nnodes u) (u_ndof1 u) (s_nstatev (m_set m))) in *.
    rewrite Q1, Q2, HL. change (Ctx (n_labels nh) (n_coords nh) (rescaled_elems t eh) (u_nnodes u) (u_ndof1 u) (s_nstatev (m_set m))) with (uctx c).
    eapply (foldM_rel run_uni _ (run_step argsortF solve (uctx c) (rescaled_settings k (m_set m)) (map sc (e_rows fh)) (Z.to_nat (s_nsteps (m_set m))) fuel)
      (seq 0 (Z.to_nat (s_nsteps (m_set m)))) (fun x y a b _ HP HF => run_step_unit c (m_set m) (e_rows fh) _ fuel a x b y HP HF)
      _ (Rs (set_lpf f0 (set_Vred (a_Ured (u_an u') ++ [f0]) (u_an u'))) (r0' :: r0' :: R0') (u_lpf_end u) [])) in Hs.
    2:{ unfold run_uni. cbn [r_an r_R r_lpf_end r_out]. split; [|auto]. clear - HM. open_uni HM. close_uni. }
    destruct Hs as (q & Hq & T1 & T2 & T3 & T4).
    rewrite Hq. cbn [bind]. rewrite T3, T4. eexists. split; [reflexivity|].
    eexists (Built (u_nnodes u) (u_ndof1 u) (r_an s) (r_R s) (r_lpf_end s)), (Built (u_nnodes u) (u_ndof1 u) (r_an q) (r_R q) (r_lpf_end s)), nh, eh, fh, bh.
    cbn [m_built m_nodes m_elems m_bounds m_forces m_set u_nnodes u_ndof1 u_an u_R u_lpf_end]. repeat (split; [first [assumption|reflexivity]|]).
    reflexivity.
  Qed.

  Lemma play_unit acts : forall m m' m1 out, model_uni m m' -> play argsortF solve acts m = Ok (m1, out) ->
    exists m1', play argsortF solve (map (rescaled_action k) acts) m' = Ok (m1', out) /\ model_uni m1 m1'.
  Proof.
    induction acts as [|[fuel|st] acts IH]; intros m m' m1 out HM H; cbn [play map rescaled_action] in *.
    - injection H as <- <-. eauto.
    - apply bind_ok in H. destruct H as ([m2 o1] & H1 & H). destruct (run_unit _ _ _ _ _ HM H1) as (m2' & -> & HM2). cbn [bind].
      apply bind_ok in H. destruct H as ([m3 o2] & H2 & H). injection H as <- <-. destruct (IH _ _ _ _ HM2 H2) as (m3' & -> & HM3). cbn [bind]. eauto.
    - eapply IH; [|exact H]. destruct HM as (u & u' & nh & eh & fh & bh & B & B' & N1 & N2 & E1 & E2 & Bd & Bd' & F1 & F2 & Hset & Q).
      exists u, u', nh, eh, fh, bh. unfold with_settings. cbn [m_built m_nodes m_elems m_bounds m_forces m_set].
      do 10 (split; [assumption|]). split; [|exact Q]. rewrite Hset. reflexivity.
  Qed.

  (** ** Building *)
  Lemma sc_zeros w : sc (repeat 0 w) = repeat 0 w.
  Proof. rewrite map_rep. f_equal. ring. Qed.
  Lemma add_forces_unit w l : forall h h1,
    foldM (fun h n => add_force h n (repeat 0 w)) l (Some h) = Ok h1 ->
    exists h1', h1 = Some h1' /\
      foldM (fun h n => add_force h n (repeat 0 w)) l (Some (rescaled_forces t h)) = Ok (Some (rescaled_forces t h1')).
  Proof.
    induction l as [|p l IH]; intros h h1 H; cbn [foldM] in *.
    - injection H as <-. eauto.
    - apply bind_ok in H. destruct H as (h2 & H2 & H). cbn [add_force rescaled_forces e_width e_nodes e_rows] in *. destruct (Nat.eqb _ _); [|discriminate]. injection H2 as <-. cbn [bind].
      destruct (IH (ForceH (e_nodes h ++ [p]) (e_width h) (e_rows h ++ [repeat 0 w])) _ H) as (h1' & -> & G).
      exists h1'. split; [reflexivity|]. unfold rescaled_forces at 1 in G. cbn [e_nodes e_width e_rows] in G. rewrite map_app in G. cbn [map] in G. rewrite sc_zeros in G. exact G.
  Qed.
  Lemma fix_forces_unit h labels h' : fix_forces argsortZ (Some h) labels = Ok h' ->
    exists fh, h' = Some fh /\ fix_forces argsortZ (Some (rescaled_forces t h)) labels = Ok (Some (rescaled_forces t fh)).
  Proof.
    intros H. unfold fix_forces in *. change (e_nodes (rescaled_forces t h)) with (e_nodes h). change (e_width (rescaled_forces t h)) with (e_width h).
    apply bind_ok in H. destruct H as (h1 & H1 & H). numR.
    destruct (add_forces_unit _ _ _ _ H1) as (h1' & -> & G). rewrite G. cbn [bind rescaled_forces e_nodes e_width e_rows].
    apply bind_ok in H. destruct H as (ns & -> & H). cbn [bind]. apply bind_ok in H. destruct H as (rs & Hrs & H). injection H as <-.
    rewrite gather_map_ok, Hrs. cbn [bind]. eexists. split; [reflexivity|]. reflexivity.
  Qed.

  Lemma build_unit m m' m0 u : rescaled_model k m m' -> build argsortZ m = Ok m0 -> m_built m0 = Some u -> D1 = a_DOF1 (u_an u) ->
    exists m0', build argsortZ m' = Ok m0' /\ model_uni m0 m0'.
  Proof.
    intros (E1 & E2 & E3 & E4 & E5) H Hu HD. unfold build in *. rewrite E1, E2, E3, E4, E5.
    destruct (m_nodes m) as [nh0|]; [|discriminate]. destruct (m_elems m) as [eh|]; [|discriminate]. cbn [option_map]. cbv zeta in *.
    apply bind_ok in H. destruct H as (on & H1 & H). rewrite H1. cbn [bind]. destruct on as [nh|]; [|discriminate].
    apply bind_ok in H. destruct H as (ob & H2 & H). rewrite H2. cbn [bind].
    destruct (m_forces m) as [fh0|] eqn:Ef; [|apply bind_ok in H; destruct H as (? & H & _); discriminate H]. cbn [option_map].
    apply bind_ok in H. destruct H as (oe & H3 & H). destruct (fix_forces_unit _ _ _ H3) as (fh & -> & G3). rewrite G3. cbn [bind].
    destruct ob as [bh|]; [|discriminate]. cbn [rescaled_forces e_nodes e_rows].
    apply bind_ok in H. destruct H as (c1 & -> & H). cbn [bind]. apply bind_ok in H. destruct H as (c2 & -> & H). cbn [bind].
    destruct (negb c2); [discriminate|]. apply bind_ok in H. destruct H as (D0 & HD0 & H). rewrite HD0. cbn [bind].
    apply bind_ok in H. destruct H as (D1' & HD1 & H). rewrite HD1. cbn [bind]. cbn [rescaled_settings rescaled_elems s_nstatev el_mtype el_labels].
    apply bind_ok in H. destruct H as (an & Han & H). rewrite Han. cbn [bind]. injection H as <-. cbn [m_built] in Hu. injection Hu as <-. cbn [u_an] in HD.
    assert (Hz3 : forall j, map (vscale t) (zeros3 j) = zeros3 j).
    { intros j. unfold zeros3. rewrite map_rep. f_equal. unfold vscale, vzero, vmap. cbn. numR. f_equal; ring. }
    assert (HzK : forall j, map (map (mscale t)) (zerosK j) = zerosK (F := R) j).
    { intros j. unfold zerosK. rewrite map_rep. f_equal. rewrite map_rep. f_equal. apply mscale_zero. }
    assert (HM : forall fc fo fo', fo' = map sc fo -> map sc fc = fc -> Uni (set_lpf f0 (set_fconst fc (set_forces fo an))) (set_lpf f0 (set_fconst fc (set_forces fo' an)))).
    { intros fc fo fo' -> Efc0. unfold analysis_build in Han. apply bind_ok in Han. destruct Han as (ured & Hg & Han). injection Han as <-. cbn [a_DOF1] in HD. subst D1'.
      split; [split; [reflexivity|apply (gather_len _ _ _ Hg)]|].
      unfold rescaled_result. cbn [a_step a_U a_U0 a_r a_g a_K a_stretch a_force a_stress a_DOF0 a_DOF1 a_Ured a_Vred a_lpf a_state a_dVmax a_j a_Kred a_Kmod a_f0red a_fconst a_forces set_lpf set_fconst set_forces].
      numR. rewrite !Hz3, HzK, !sc_zeros. do 11 (split; [reflexivity|]). do 7 (split; [reflexivity|]). split; [|split; [symmetry; exact Efc0|reflexivity]].
      destruct (0 <? _)%Z; [|reflexivity]. cbn [option_map]. rewrite map_rep. do 2 f_equal. destruct (Z.to_nat _); [reflexivity|]. cbn. f_equal. ring. }
    eexists. split; [reflexivity|]. eexists _, _, nh, eh, fh, bh. cbn [m_built m_nodes m_elems m_bounds m_forces m_set u_nnodes u_ndof1 u_an u_R u_lpf_end].
    do 2 (split; [reflexivity|]). do 8 (split; [reflexivity|]). split; [reflexivity|].
    split; [reflexivity|]. split; [reflexivity|].
    split. { unfold analysis_build in Han. apply bind_ok in Han. destruct Han as (ured & Hg & Han). injection Han as <-. exact (HM [] [] [] eq_refl eq_refl). }
    split; [|reflexivity]. constructor; [|constructor]. apply HM; [reflexivity|].
    rewrite map_rep. f_equal. apply (sc_zeros 3).
  Qed.
End Run.
