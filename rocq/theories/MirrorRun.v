(** * Sessions with a mirrored truss *)
From Coq Require Import List ZArith Bool Arith Lia Reals Lra.
Import ListNotations.
From Verif Require Import Num NumR Vec Handlers Material Analysis Truss Equil Solver Run ListFacts SpecRun SpecSame SpecMirror MirrorFacts MirrorEval MirrorPath.
Local Open Scope R_scope.

Lemma foldM_rel {A A' B} (P : A -> A' -> Prop) (f : A -> B -> res A) (f' : A' -> B -> res A') l :
  (forall x y a b, In b l -> P a x -> f a b = Ok y -> exists y', f' x b = Ok y' /\ P y y') ->
  forall a x y, P a x -> foldM f l a = Ok y -> exists y', foldM f' l x = Ok y' /\ P y y'.
Proof.
  induction l as [|b l IH]; intros Hf a x y HP H; cbn [foldM] in *; [injection H as <-; eauto|].
  apply bind_ok in H. destruct H as (a1 & H1 & H). destruct (Hf _ _ _ _ (or_introl eq_refl) HP H1) as (x1 & -> & P1). cbn [bind].
  eapply IH; [|exact P1|exact H]. intros x2 y2 a2 b2 Hb. apply Hf. right. exact Hb.
Qed.

Lemma map_rep {A B} (f : A -> B) x k : map f (repeat x k) = repeat (f x) k.
Proof. induction k as [|k IH]; [reflexivity|]. cbn. rewrite IH. reflexivity. Qed.

Section Run.
  Variable mir : v3 bool.
  Variable rv : bool.
  Variable argsortF : list R -> list nat.
  Variable argsortZ : list Z -> list nat.
  Variable solve : list (list R) -> list R -> list R.
  Hypothesis Hsolve : sign_free solve.
  Notation mirror := (mirror mir).
  Notation mirror_row := (mirror_row mir).
  Notation turned := (turned mir).
  Notation mirror_load := (mirror_load mir rv).

  (** ** Load tables *)
  Lemma block_mirror s rows : block s (map mirror_load rows) = map mirror_load (block s rows).
  Proof.
    unfold block, SpecMirror.mirror_load. rewrite !map_map. apply map_ext. intros r. rewrite mirror_row_first, mirror_row_skip.
    - rewrite skipn_map, firstn_map. reflexivity.
    - rewrite Nat.mul_comm. apply Nat.mod_mul. lia.
  Qed.
  Lemma load_length r : length (mirror_load r) = length r.
  Proof. unfold SpecMirror.mirror_load. rewrite map_length. apply mirror_row_length. Qed.
  Lemma load_zero k : mirror_load (repeat 0 k) = repeat 0 k.
  Proof. unfold SpecMirror.mirror_load. rewrite mirror_row_zero, map_rep, opp_if_0. reflexivity. Qed.
  Lemma block_rows3 s rows : rows3 rows -> rows3 (block s rows).
  Proof.
    unfold rows3, block. intros H. apply Forall_map. eapply Forall_impl; [|exact H]. intros r Hr. cbn beta in *.
    rewrite firstn_length, skipn_length. apply Nat.mod_divides in Hr; [|lia]. destruct Hr as [k Hk]. rewrite Hk, <- Nat.mul_sub_distr_l.
    destruct (k - s)%nat as [|i]; [reflexivity|]. rewrite Nat.min_l by lia. reflexivity.
  Qed.
  Lemma add_scaled_mirror acc l blk r : add_scaled acc l blk = Ok r -> add_scaled (map mirror_row acc) (opp_if rv l) (map mirror_load blk) = Ok (map mirror_row r) /\ (rows3 acc -> rows3 r).
  Proof.
    unfold add_scaled. destruct (forallb _ (combine acc blk)) eqn:E; [|discriminate]. intros H. injection H as <-.
    assert (G : forallb (fun p => Nat.eqb (length (fst p)) (length (snd p))) (combine (map mirror_row acc) (map mirror_load blk)) = true /\
      map2 (fun a b => map2 (fun x y => (x + opp_if rv l * y)%num) a b) (map mirror_row acc) (map mirror_load blk) = map mirror_row (map2 (fun a b => map2 (fun x y => (x + l * y)%num) a b) acc blk) /\
      (rows3 acc -> rows3 (map2 (fun a b => map2 (fun x y => (x + l * y)%num) a b) acc blk))).
    { revert blk E. induction acc as [|a acc IH]; intros [|b blk] E; cbn [map map2 combine forallb fst snd] in *; try (split; [reflexivity|]; split; [reflexivity|intros _; apply Forall_nil]).
      apply andb_prop in E. destruct E as [E1 E2]. apply Nat.eqb_eq in E1. destruct (IH blk E2) as (I1 & I2 & I3). rewrite mirror_row_length, load_length, E1, Nat.eqb_refl, I1, I2.
      split; [reflexivity|]. split.
      - f_equal. transitivity (map2 (fun x y => x + l * y) (mirror_row a) (mirror_row b)).
        { unfold SpecMirror.mirror_load. generalize (mirror_row a), (mirror_row b). induction l0 as [|x l0 IHl]; intros [|y l1]; [reflexivity|reflexivity|reflexivity|].
          cbn. rewrite opp_if_sq, IHl. reflexivity. }
        rewrite mirror_row_map2; [reflexivity|exact E1|]. intros. rewrite opp_if_add, opp_if_scale. reflexivity.
      - intros H. inversion H; subst. constructor; [rewrite map2_length, E1, Nat.min_id, <- E1; assumption|apply I3; assumption]. }
    destruct G as (G1 & G2 & G3). rewrite G1, G2. auto.
  Qed.
  Lemma const_forces_mirror rows ends step fc : rows3 rows -> const_forces rows ends step = Ok fc ->
    const_forces (map mirror_load rows) (map (opp_if rv) ends) step = Ok (map mirror_row fc) /\ rows3 fc.
  Proof.
    intros H3 H. unfold const_forces in *.
    eapply (foldM_rel (fun a a' => a' = map mirror_row a /\ rows3 a) _ (fun acc s => match nth_error (map (opp_if rv) ends) s with None => Err IndexError | Some l => add_scaled acc l (block s (map mirror_load rows)) end)) with
      (x := map (map (fun _ => f0)) (block step (map mirror_load rows))) in H.
    - destruct H as (y & Hy & -> & Hr). auto.
    - intros a' y a s _ [-> Ha] Hs. cbn beta in *. rewrite nth_error_map. destruct (nth_error ends s); [|discriminate]. cbn [option_map]. rewrite block_mirror.
      destruct (add_scaled_mirror _ _ _ _ Hs) as [-> Hr]. eexists. split; [reflexivity|]. auto.
    - rewrite block_mirror, !map_map. split.
      + apply map_ext. intros r. numR. 
        assert (G : forall l : list R, map (fun _ => 0) l = repeat 0 (length l)) by (induction l as [|? ? IH]; cbn; congruence).
        rewrite !G, load_length, mirror_row_zero. reflexivity.
      + unfold rows3. apply Forall_map. eapply Forall_impl; [|apply (block_rows3 step _ H3)]. intros r Hr. cbn beta in *. rewrite map_length. exact Hr.
  Qed.

  (** ** Steps *)
  Variable D1 : list nat.
  Notation bs := (unknowns mir rv D1).
  Notation n := (length D1).
  Notation Mir := (Mir mir rv D1).
  Notation mctx := (mctx mir).

  Ltac open_mir HM := let H := fresh in destruct HM as (?HD & ?H3a & ?H3b & [?HLU ?HLV] & H); unfold mirrored_result in H; cbv zeta in H; rewrite HD in H;
    destruct H as (?Estep & ?ED0 & ?ED1 & ?EU & ?EU0 & ?Er & ?Eg & ?EK & ?Estr & ?Efrc & ?Ests & ?Est & ?Elpf & ?EdV & ?Ej & ?EUr & ?EVr & ?Ef0 & ?EKr & ?Efc & ?Efo).
  Ltac close_mir := split; [assumption|]; split; [first [assumption|idtac]|]; split; [first [assumption|idtac]|];
    split; [split; first [assumption|idtac]|];
    unfold mirrored_result; cbv zeta;
    cbn [a_step a_U a_U0 a_r a_g a_K a_stretch a_force a_stress a_DOF0 a_DOF1 a_Ured a_Vred a_lpf a_state a_dVmax a_j a_Kred a_Kmod a_f0red a_fconst a_forces
         set_step set_U set_U0 set_r set_g set_K set_stretch set_force set_stress set_Ured set_Vred set_lpf set_state set_dVmax set_j set_Kred set_Kmod set_f0red set_fconst set_forces];
    repeat match goal with H : a_DOF1 _ = D1 |- _ => rewrite H end;
    repeat (split; [first [assumption|reflexivity|congruence|idtac]|]); try first [assumption|reflexivity|congruence].

  Lemma setup_mirror rows step an an' R0 R0' ends out b : rows3 rows -> Mir an an' -> step_setup rows step (Rs an R0 ends out) = Ok b ->
    exists b', step_setup (map mirror_load rows) step (Rs an' R0' (map (opp_if rv) ends) out) = Ok b' /\ Mir b b'.
  Proof.
    intros H3 HM H. unfold step_setup in *. cbn [r_an r_lpf_end] in *. cbv zeta in *. apply bind_ok in H. destruct H as (fc & Hfc & H).
    destruct (const_forces_mirror _ _ _ _ H3 Hfc) as [-> Hfc3]. cbn [bind]. apply bind_ok in H. destruct H as (f0r & Hf & H). injection H as <-.
    pose proof (block_rows3 step rows H3) as Hb3. open_mir HM. rewrite HD in Hf.
    rewrite block_mirror, load_concat, mirror_row_concat by exact Hb3. rewrite ED1, gather_map_ok, (gather_mirror mir _ _ _ Hf). cbn [bind].
    eexists. split; [reflexivity|]. pose proof (gather_len _ _ _ Hf) as Lf. close_mir. f_equal. symmetry. apply flip_unknowns, Lf.
  Qed.

  (** Settings that differ at most in the sign of a control component. *)
  Definition same_set (s s' : settings R) : Prop :=
    exists j0', s' = with_j0 j0' s /\ (match j0' with Some _ => true | None => false end = match s_j0 s with Some _ => true | None => false end) /\
      (s_jfixed s = true -> j0' = option_map (flip_j bs) (s_j0 s)) /\ locked rv s.

  Definition run_mir (s s' : runst R) : Prop :=
    Mir (r_an s) (r_an s') /\ Forall2 Mir (r_R s) (r_R s') /\ r_lpf_end s' = map (opp_if rv) (r_lpf_end s) /\ r_out s' = r_out s.

  Lemma path_mirror c a a' du dl j j' jpre cfg fuel t : (rv = true -> cf_jfixed cfg = true) -> c_ndof1 c = n -> Mir a a' -> (cf_jfixed cfg = true -> j' = option_map (flip_j bs) j) ->
    pathfollow solve argsortF (fun V V0 w a => equilibrium c V V0 w a) (fun U a => stiffness c U a) (a_Ured a) a (DxVec [du; dl]) j jpre cfg fuel = Ok t ->
    exists t', pathfollow solve argsortF (fun V V0 w a => equilibrium (mctx c) V V0 w a) (fun U a => stiffness (mctx c) U a) (a_Ured a') a' (DxVec [du; dl]) j' jpre cfg fuel = Ok t' /\
      pf_flip Mir (map turned D1) rv t t'.
  Proof.
    intros Hlk Hn HM Hj H.
    assert (Ln : length (map turned D1) = n) by apply map_length.
    destruct (pathfollow_flip solve argsortF (fun V V0 w a => equilibrium c V V0 w a) (fun V V0 w a => equilibrium (mctx c) V V0 w a)
      (fun U a => stiffness c U a) (fun U a => stiffness (mctx c) U a) Mir (map turned D1) rv Hsolve) with (Ured := a_Ured a) (a := a) (a' := a') (du := du) (dl := dl) (j := j) (jpre := jpre) (cfg := cfg) (fuel := fuel) (t := t)
      as (t' & Ht & HP); try assumption.
    - intros V V0 w x x' y gr HV HV0 Hx Hy. rewrite Ln in *. destruct (equilibrium_mirror mir rv D1 _ _ _ _ _ _ _ _ Hn HV HV0 Hx Hy) as (Lg & b' & Hb & HM'). eauto.
    - intros V x x' y K HV Hx Hy. rewrite Ln in *. destruct (stiffness_mirror mir rv D1 _ _ _ _ _ _ Hn HV Hx Hy) as (LK & FK & b' & Hb & HM'). eauto.
    - clear. intros j a a' HM. open_mir HM. close_mir. 
    - clear. intros v v' a a' HM. open_mir HM. close_mir.
    - clear. intros v a a' HM. open_mir HM. close_mir.
    - clear. intros v a a' HM. open_mir HM. close_mir.
    - clear - Ln. intros v a a' HL HM. rewrite Ln in HL. open_mir HM. close_mir.
    - clear - Ln. intros v a a' HL HM. rewrite Ln in HL. open_mir HM. close_mir. cbn [a_Vred set_Vred]. lia.
    - clear. intros a a' HM. open_mir HM. exact Ef0.
    - rewrite Ln. apply HM.
    - exists t'. split; [|exact HP]. assert (EU : a_Ured a' = flip bs (a_Ured a)) by (clear - HM; open_mir HM; exact EUr).
      rewrite EU. rewrite <- Ht. unfold pathfollow. destruct (negb (cf_jfixed cfg)) eqn:Ef; [reflexivity|].
      apply negb_false_iff in Ef. rewrite (Hj Ef). reflexivity.
  Qed.

  Lemma Forall2_removelast {A B} (P : A -> B -> Prop) l l' : Forall2 P l l' -> Forall2 P (removelast l) (removelast l').
  Proof. induction 1 as [|x y l l' Hx H IH]; [constructor|]. cbn. destruct H; [constructor|]. constructor; assumption. Qed.
  Lemma write_mirror R0 R0' l l' : Forall2 Mir R0 R0' -> Forall2 Mir l l' ->
    Forall2 Mir (fold_left write_result l R0) (fold_left write_result l' R0').
  Proof.
    intros HR H. revert R0 R0' HR. induction H as [|a a' l l' Ha H IH]; intros R0 R0' HR; cbn [fold_left]; [exact HR|].
    apply IH. unfold write_result. apply Forall2_app; [apply Forall2_removelast, HR|]. auto.
  Qed.
  Lemma Forall2_rev' {A B} (P : A -> B -> Prop) l l' : Forall2 P l l' -> Forall2 P (rev l) (rev l').
  Proof. induction 1; cbn; [constructor|]. apply Forall2_app; auto. Qed.
  Lemma copy_U_mirror R0 R0' : Forall2 Mir R0 R0' -> Forall2 Mir (copy_U_last R0) (copy_U_last R0').
  Proof.
    intros H. unfold copy_U_last. pose proof (Forall2_rev' _ _ _ H) as Hr. destruct Hr as [|a a' l l' Ha _]; [constructor|].
    apply Forall2_app; [apply Forall2_removelast, H|]. constructor; [|constructor]. clear - Ha. open_mir Ha. close_mir.
  Qed.
  Lemma zero_last_flip v : (length v <= S n)%nat -> zero_last (flip bs v) = flip bs (zero_last v).
  Proof.
    intros Hv. rewrite <- unknowns_length with (mir := mir) (rv := rv) in Hv. revert v Hv. generalize bs. induction l as [|b l IH]; intros [|x v] H; cbn in H; try lia; try reflexivity.
    destruct v as [|y v].
    - cbn. destruct l; cbn; rewrite opp_if_0; reflexivity.
    - destruct l as [|b2 l]; [cbn in H; lia|]. specialize (IH (y :: v) ltac:(cbn in *; lia)).
      cbn in IH |- *. f_equal. exact IH.
  Qed.
  Lemma zero_last_len v : (length (zero_last v : list R) = length v)%nat.
  Proof. destruct v as [|x v]; [reflexivity|]. unfold zero_last. rewrite app_length. destruct (exists_last (l := x :: v)) as (u & l & E); [discriminate|]. rewrite E, removelast_last, app_length. reflexivity. Qed.

  Lemma run_step_mirror c st st' rows nsteps fuel s s' step t : c_ndof1 c = n -> same_set st st' -> rows3 rows -> run_mir s s' ->
    run_step argsortF solve c st rows nsteps fuel s step = Ok t ->
    exists t', run_step argsortF solve (mctx c) st' (map mirror_load rows) nsteps fuel s' step = Ok t' /\ run_mir t t'.
  Proof.
    intros Hn (j0' & -> & _ & Hj & Hlk) H3 HS H. destruct s as [an R0 ends out], s' as [an' R0' ends' out']. destruct HS as (HM & HR & E1 & E2). cbn [r_an r_R r_lpf_end r_out] in *. subst ends' out'.
    unfold run_step in *. cbn [with_j0 s_incs s_xlimit s_du s_dlpf s_j0 s_jpre r_an r_R r_lpf_end r_out] in *.
    apply bind_ok in H. destruct H as (incs & -> & H). cbn [bind]. apply bind_ok in H. destruct H as (xl & -> & H). cbn [bind].
    apply bind_ok in H. destruct H as (an1 & Han & H). destruct (setup_mirror _ _ _ _ _ R0' _ _ _ H3 HM Han) as (an1' & -> & HM1). cbn [bind].
    apply bind_ok in H. destruct H as (pf & Hpf & H).
    assert (Hj2 : cf_jfixed (pf_config st xl incs) = true -> j0' = option_map (flip_j bs) (s_j0 st)) by exact Hj.
    assert (Hlk2 : rv = true -> cf_jfixed (pf_config st xl incs) = true) by exact Hlk.
    destruct (path_mirror _ _ _ _ _ _ _ _ _ _ _ Hlk2 Hn HM1 Hj2 Hpf) as (pf' & Hpf' & P1 & P2 & P3 & P4 & P5 & P6 & P7 & P8 & P9 & P10).
    change (pf_config (with_j0 j0' st) xl incs) with (pf_config st xl incs). rewrite Hpf'. cbn [bind]. cbv zeta in *.
    assert (HR1 : Forall2 Mir (map snd (tl (ps_res pf))) (map snd (tl (ps_res pf')))).
    { clear - P9. assert (HT : Forall2 (rec_flip Mir (map turned D1) rv) (tl (ps_res pf)) (tl (ps_res pf'))) by (destruct P9; [constructor|assumption]).
      induction HT as [|x y l l' Hx HT IH]; cbn; constructor; [apply Hx|exact IH]. }
    pose proof (copy_U_mirror _ _ (write_mirror _ _ _ _ HR HR1)) as HR2.
    set (R2 := copy_U_last (fold_left write_result (map snd (tl (ps_res pf))) R0)) in *.
    set (R2' := copy_U_last (fold_left write_result (map snd (tl (ps_res pf'))) R0')) in *.
    apply bind_ok in H. destruct H as (lpf & Hl & H).
    assert (Hl' : match rev R2' with [] => Err IndexError | a :: _ => Ok (a_lpf a) end = Ok (opp_if rv lpf)).
    { pose proof (Forall2_rev' _ _ _ HR2) as Hr. destruct Hr as [|a a' l l' Ha _]; [discriminate|]. injection Hl as <-. f_equal. apply Ha. }
    rewrite Hl'. cbn [bind]. rewrite P10. destruct (Nat.ltb (step + 1) nsteps); injection H as <-; (eexists; split; [reflexivity|]); unfold run_mir; cbn [r_an r_R r_lpf_end r_out].
    - split; [|split; [exact HR2|split; [rewrite map_app; reflexivity|reflexivity]]]. clear - P1. open_mir P1. close_mir; [cbn [a_Vred set_Vred set_lpf]; rewrite zero_last_len; exact HLV|symmetry; apply opp_if_0|]. rewrite EVr. apply zero_last_flip, HLV.
    - split; [exact P1|]. split; [apply Forall2_removelast, HR2|]. split; [rewrite map_app; reflexivity|reflexivity].
  Qed.

  (** ** Models *)
  Definition model_mir (m m' : model R) : Prop :=
    exists u u' nh eh fh bh, m_built m = Some u /\ m_built m' = Some u' /\
      m_nodes m = Some nh /\ m_nodes m' = Some (NodeH (n_labels nh) (map mirror (n_coords nh))) /\
      m_elems m = Some eh /\ m_elems m' = Some eh /\ m_bounds m = Some bh /\ m_bounds m' = Some bh /\
      m_forces m = Some fh /\ m_forces m' = Some (ForceH (e_nodes fh) (e_width fh) (map mirror_load (e_rows fh))) /\ rows3 (e_rows fh) /\
      same_set (m_set m) (m_set m') /\
      u_nnodes u' = u_nnodes u /\ u_ndof1 u = n /\ u_ndof1 u' = n /\ Mir (u_an u) (u_an u') /\
      Forall2 Mir (u_R u) (u_R u') /\ u_lpf_end u' = map (opp_if rv) (u_lpf_end u).

  Lemma run_mirror m m' fuel m1 out : model_mir m m' -> run argsortF solve m fuel = Ok (m1, out) ->
    exists m1', run argsortF solve m' fuel = Ok (m1', out) /\ model_mir m1 m1'.
  Proof.
    intros (u & u' & nh & eh & fh & bh & B & B' & N1 & N2 & E1 & E2 & Bd & Bd' & F1 & F2 & H3 & Hset & Q1 & Q2 & Q3 & HM & HR & HL) H.
    unfold run in *. cbv zeta in *. destruct Hset as (j0' & Es & Hj1 & Hj2 & Hlk). rewrite Es. cbn [with_j0 s_log s_j0 s_stepcontrol s_reduce s_nstatev s_nsteps]. rewrite Hj1.
    destruct (_ && _)%bool; [discriminate|]. destruct (_ && _)%bool; [discriminate|].
    rewrite B, N1, E1, F1 in H. rewrite B', N2, E2, F2. cbn [n_labels n_coords e_rows].
    destruct HR as [|r0 r0' R0 R0' Hr0 HR]; [discriminate|].
    apply bind_ok in H. destruct H as (s & Hs & H). injection H as <- <-.
    set (c := Ctx (n_labels nh) (n_coords nh) eh (u_nnodes u) (u_ndof1 u) (s_nstatev (m_set m))) in *.
    assert (Hset : same_set (m_set m) (with_j0 j0' (m_set m))) by (exists j0'; auto).
    rewrite Q1, Q3, HL. replace (Ctx _ (map mirror (n_coords nh)) _ _ _ _) with (mctx c) by (unfold c, mctx; cbn; rewrite Q2; reflexivity).
    eapply (foldM_rel run_mir _ (run_step argsortF solve (mctx c) (with_j0 j0' (m_set m)) (map mirror_load (e_rows fh)) (Z.to_nat (s_nsteps (m_set m))) fuel)
      (seq 0 (Z.to_nat (s_nsteps (m_set m)))) (fun x y a b _ HP HF => run_step_mirror c (m_set m) _ (e_rows fh) _ fuel a x b y Q2 Hset H3 HP HF)
      _ (Rs (set_lpf f0 (set_Vred (a_Ured (u_an u') ++ [f0]) (u_an u'))) (r0' :: r0' :: R0') (map (opp_if rv) (u_lpf_end u)) [])) in Hs.
    2:{ unfold run_mir. cbn [r_an r_R r_lpf_end r_out]. split; [|auto]. clear - HM. open_mir HM. close_mir.
        - cbn [a_Vred set_Vred set_lpf]. rewrite app_length. cbn. lia.
        - symmetry. apply opp_if_0.
        - rewrite EUr, flip_unknowns_snoc, opp_if_0 by exact HLU. reflexivity. }
    destruct Hs as (t & Ht & T1 & T2 & T3 & T4).
    rewrite Ht. cbn [bind]. rewrite T3, T4. eexists. split; [reflexivity|].
    exists (Built (u_nnodes u) (u_ndof1 u) (r_an s) (r_R s) (r_lpf_end s)), (Built (u_nnodes u) n (r_an t) (r_R t) (map (opp_if rv) (r_lpf_end s))), nh, eh, fh, bh.
    cbn [m_built m_nodes m_elems m_bounds m_forces m_set u_nnodes u_ndof1 u_an u_R u_lpf_end]. repeat (split; [first [assumption|reflexivity]|]). 
    reflexivity.
  Qed.

  Lemma play_mirror acts : (forall st, In (ASet st) acts -> locked rv st) -> forall m m' m1 out, model_mir m m' -> play argsortF solve acts m = Ok (m1, out) ->
    exists m1', play argsortF solve (map (mirrored_action mir rv D1) acts) m' = Ok (m1', out) /\ model_mir m1 m1'.
  Proof.
    induction acts as [|[fuel|st] acts IH]; intros Hlk m m' m1 out HM H; cbn [play map mirrored_action] in *;
      try (assert (Hlk2 : forall st, In (ASet st) acts -> locked rv st) by (intros s0 H0; apply Hlk; right; exact H0); specialize (IH Hlk2)).
    - injection H as <- <-. eauto.
    - apply bind_ok in H. destruct H as ([m2 o1] & H1 & H). destruct (run_mirror _ _ _ _ _ HM H1) as (m2' & -> & HM2). cbn [bind].
      apply bind_ok in H. destruct H as ([m3 o2] & H2 & H). injection H as <- <-. destruct (IH _ _ _ _ HM2 H2) as (m3' & -> & HM3). cbn [bind]. eauto.
    - eapply IH; [|exact H]. destruct HM as (u & u' & nh & eh & fh & bh & B & B' & N1 & N2 & E1 & E2 & Bd & Bd' & F1 & F2 & H3 & Hset & Q).
      exists u, u', nh, eh, fh, bh. unfold with_settings. cbn [m_built m_nodes m_elems m_bounds m_forces m_set].
      do 11 (split; [assumption|]). split; [|exact Q]. destruct Hset as (j0' & -> & _ & _ & _).
      exists (option_map (flip_j bs) (s_j0 st)). split; [reflexivity|]. split; [cbn [with_nstatev s_j0]; destruct (s_j0 st); reflexivity|]. split; [intros _; reflexivity|]. apply (Hlk st). left. reflexivity.
  Qed.

  (** ** Building *)
  Lemma add_forces_mirror w l : forall h h1, (w mod 3 = 0)%nat -> rows3 (e_rows h) ->
    foldM (fun h n => add_force h n (repeat 0 w)) l (Some h) = Ok h1 ->
    exists h1', h1 = Some h1' /\ rows3 (e_rows h1') /\
      foldM (fun h n => add_force h n (repeat 0 w)) l (Some (ForceH (e_nodes h) (e_width h) (map mirror_load (e_rows h)))) =
        Ok (Some (ForceH (e_nodes h1') (e_width h1') (map mirror_load (e_rows h1')))).
  Proof.
    induction l as [|k l IH]; intros h h1 Hw H3 H; cbn [foldM] in *.
    - injection H as <-. eauto.
    - apply bind_ok in H. destruct H as (h2 & H2 & H). cbn [add_force e_width e_nodes e_rows] in *. destruct (Nat.eqb _ _); [|discriminate]. injection H2 as <-. cbn [bind].
      assert (R2 : rows3 (e_rows h ++ [repeat 0 w])).
      { apply Forall_app. split; [exact H3|]. constructor; [rewrite repeat_length; exact Hw|constructor]. }
      destruct (IH (ForceH (e_nodes h ++ [k]) (e_width h) (e_rows h ++ [repeat 0 w])) _ Hw R2 H) as (h1' & -> & R3 & G).
      exists h1'. split; [reflexivity|]. split; [exact R3|]. cbn [e_nodes e_width e_rows] in G. rewrite map_app in G. cbn [map] in G. rewrite load_zero in G. exact G.
  Qed.
  Lemma fix_forces_mirror h labels h' : (e_width h mod 3 = 0)%nat -> rows3 (e_rows h) -> fix_forces argsortZ (Some h) labels = Ok h' ->
    exists fh, h' = Some fh /\ rows3 (e_rows fh) /\
      fix_forces argsortZ (Some (ForceH (e_nodes h) (e_width h) (map mirror_load (e_rows h)))) labels = Ok (Some (ForceH (e_nodes fh) (e_width fh) (map mirror_load (e_rows fh)))).
  Proof.
    intros Hw H3 H. unfold fix_forces in *. cbn [e_nodes e_width e_rows] in *. apply bind_ok in H. destruct H as (h1 & H1 & H).
    destruct (add_forces_mirror _ _ _ _ Hw H3 H1) as (h1' & -> & R3 & G). numR. rewrite G. cbn [bind e_nodes e_width e_rows].
    apply bind_ok in H. destruct H as (ns & -> & H). cbn [bind]. apply bind_ok in H. destruct H as (rs & Hrs & H). injection H as <-.
    rewrite gather_map_ok, Hrs. cbn [bind]. eexists. split; [reflexivity|]. split; [|reflexivity]. cbn [e_rows].
    clear - R3 Hrs. unfold rows3 in *. revert rs Hrs. generalize (argsortZ (e_nodes h1')). induction l as [|i l IH]; intros rs H; cbn [gather] in H; [injection H as <-; constructor|].
    destruct (nth_error _ i) as [r|] eqn:E; [|discriminate]. apply bind_ok in H. destruct H as (xs & Hx & H). injection H as <-. constructor; [|auto].
    apply nth_error_In in E. rewrite Forall_forall in R3. auto.
  Qed.
  Lemma fix_nodes_mirror h h' : fix_nodes argsortZ (Some h) = Ok h' ->
    exists nh, h' = Some nh /\ fix_nodes argsortZ (Some (NodeH (n_labels h) (map mirror (n_coords h)))) = Ok (Some (NodeH (n_labels nh) (map mirror (n_coords nh)))).
  Proof.
    intros H. unfold fix_nodes in *. cbn [n_labels n_coords] in *. apply bind_ok in H. destruct H as (ls & -> & H). cbn [bind].
    apply bind_ok in H. destruct H as (cs & Hc & H). injection H as <-. rewrite gather_map_ok, Hc. cbn [bind]. eauto.
  Qed.

  Lemma vflat_zeros k : vflat (zeros3 (F := R) k) = repeat 0 (3 * k).
  Proof.
    unfold zeros3, vflat. induction k as [|k IH]; [reflexivity|]. cbn [repeat flat_map]. rewrite IH. replace (3 * S k)%nat with (3 + 3 * k)%nat by lia. reflexivity.
  Qed.

  Lemma build_mirror m m' m0 u : mirrored_model mir rv D1 m m' -> locked rv (m_set m) -> whole_loads m -> build argsortZ m = Ok m0 -> m_built m0 = Some u -> D1 = a_DOF1 (u_an u) ->
    exists m0', build argsortZ m' = Ok m0' /\ model_mir m0 m0'.
  Proof.
    intros (E1 & E2 & E3 & E4 & E5) Hlk HW H Hu HD. unfold build in *. rewrite E1, E2, E3, E4, E5.
    destruct (m_nodes m) as [nh0|]; [|discriminate]. destruct (m_elems m) as [eh|]; [|discriminate]. cbn [option_map]. cbv zeta in *. cbn [n_labels].
    apply bind_ok in H. destruct H as (on & H1 & H). destruct (fix_nodes_mirror _ _ H1) as (nh & -> & G1). rewrite G1. cbn [bind n_labels] in *.
    apply bind_ok in H. destruct H as (ob & H2 & H). rewrite H2. cbn [bind].
    destruct (m_forces m) as [fh0|] eqn:Ef; [|apply bind_ok in H; destruct H as (? & H & _); discriminate H]. cbn [option_map].
    destruct (HW fh0 Ef) as [Hw Hr].
    assert (Hr3 : rows3 (e_rows fh0)). { unfold rows3. eapply Forall_impl; [|exact Hr]. intros r Er. cbn beta in *. rewrite Er. exact Hw. }
    apply bind_ok in H. destruct H as (oe & H3 & H). destruct (fix_forces_mirror _ _ _ Hw Hr3 H3) as (fh & -> & R3 & G3). rewrite G3. cbn [bind].
    destruct ob as [bh|]; [|discriminate]. cbn [e_nodes e_rows].
    apply bind_ok in H. destruct H as (c1 & -> & H). cbn [bind]. apply bind_ok in H. destruct H as (c2 & -> & H). cbn [bind].
    destruct (negb c2); [discriminate|]. apply bind_ok in H. destruct H as (D0 & HD0 & H). rewrite HD0. cbn [bind].
    apply bind_ok in H. destruct H as (D1' & HD1 & H). rewrite HD1. cbn [bind]. cbn [mirrored_settings with_j0 s_nstatev].
    apply bind_ok in H. destruct H as (an & Han & H). rewrite Han. cbn [bind]. injection H as <-. cbn [m_built] in Hu. injection Hu as <-. cbn [u_an] in HD.
    assert (Ean : exists ured, length ured = n /\ ured = repeat 0 (length ured) /\ an = An 1%Z (zeros3 (length (n_labels nh0))) (zeros3 (length (n_labels nh0))) (zeros3 (length (n_labels nh0))) (repeat 0 (3 * length (n_labels nh0)))
      (zerosK (length (n_labels nh0))) (repeat 0 (length (el_labels eh))) (repeat 0 (length (el_labels eh))) (repeat 0 (length (el_labels eh))) D0 D1 ured [] 0
      (if (0 <? (if existsb (Z.eqb 2) (el_mtype eh) then 2 else s_nstatev (m_set m)))%Z then Some (repeat (repeat 0 (Z.to_nat (if existsb (Z.eqb 2) (el_mtype eh) then 2 else s_nstatev (m_set m)))) (length (el_labels eh))) else None)
      [] 0%Z [] [] [] [] []).
    { unfold analysis_build in Han. apply bind_ok in Han. destruct Han as (ured & Hg & Han). injection Han as <-. cbn [a_DOF1] in HD. subst D1'.
      exists ured. split; [apply (gather_len _ _ _ Hg)|]. split; [|reflexivity]. rewrite vflat_zeros in Hg.
      clear - Hg. revert ured Hg. generalize (3 * length (n_labels nh0))%nat. intros k. induction D1 as [|p D IH]; intros x H; cbn [gather] in H; [injection H as <-; reflexivity|].
      destruct (nth_error _ p) as [v|] eqn:E; [|discriminate]. apply bind_ok in H. destruct H as (xs & Hx & H). injection H as <-. cbn. f_equal; [|apply IH, Hx].
      apply nth_error_In, repeat_spec in E. exact E. }
    destruct Ean as (ured & Lu & Zu & Ean).
    assert (Hz3 : forall k, map mirror (zeros3 k) = zeros3 k). { intros k. unfold zeros3. induction k as [|k IH]; [reflexivity|]. cbn [repeat map]. rewrite mirror_zero, IH. reflexivity. }
    assert (HzK : forall k, map (map (mirror_block mir)) (zerosK k) = zerosK (F := R) k).
    { intros k. unfold zerosK. rewrite map_rep. f_equal. rewrite map_rep, block_zero. reflexivity. }
    assert (HM : forall fc fo fo', rows3 fc -> rows3 fo -> fo' = map mirror_load fo -> map mirror_row fc = fc -> Mir (set_lpf f0 (set_fconst fc (set_forces fo an))) (set_lpf f0 (set_fconst fc (set_forces fo' an)))).
    { intros fc fo fo' Hfc Hfo -> Efc0. subst an. split; [reflexivity|]. split; [exact Hfc|]. split; [exact Hfo|]. split; [split; [exact Lu|cbn; lia]|].
      unfold mirrored_result. cbv zeta. cbn [a_step a_U a_U0 a_r a_g a_K a_stretch a_force a_stress a_DOF0 a_DOF1 a_Ured a_Vred a_lpf a_state a_dVmax a_j a_Kred a_Kmod a_f0red a_fconst a_forces set_lpf set_fconst set_forces].
      rewrite !Hz3, HzK, mirror_row_zero. numR.
      do 12 (split; [reflexivity|]). split; [symmetry; apply opp_if_0|]. split; [reflexivity|]. split. { unfold flip_j. destruct (py_get bs _) as [[]| |]; reflexivity. }
      split. { rewrite Zu. rewrite flip_zero, unknowns_length, Lu. f_equal. lia. }
      split. { unfold flip. destruct bs; reflexivity. } split. { unfold flip. destruct bs; reflexivity. } split. { destruct bs; reflexivity. }
      split; [symmetry; exact Efc0|reflexivity]. }
    eexists. split; [reflexivity|]. eexists _, _, nh, eh, fh, bh. cbn [m_built m_nodes m_elems m_bounds m_forces m_set u_nnodes u_ndof1 u_an u_R u_lpf_end].
    do 2 (split; [reflexivity|]). do 8 (split; [reflexivity|]). split; [exact R3|].
    split. { exists (option_map (flip_j bs) (s_j0 (m_set m))). split; [reflexivity|]. split; [cbn [with_nstatev s_j0]; destruct (s_j0 (m_set m)); reflexivity|]. split; [intros _; reflexivity|exact Hlk]. }
    assert (ED : D1' = D1). { subst an. unfold analysis_build in Han. apply bind_ok in Han. destruct Han as (x & _ & Han). injection Han. auto. }
    rewrite ED. split; [reflexivity|]. split; [reflexivity|]. split; [reflexivity|].
    split. { pose proof (HM [] [] [] ltac:(constructor) ltac:(constructor) eq_refl eq_refl) as H0. subst an. exact H0. }
    split; [|reflexivity]. constructor; [|constructor]. apply HM; [|exact R3|reflexivity|].
    - unfold rows3. apply Forall_forall. intros r Hin. apply repeat_spec in Hin. subst r. reflexivity.
    - rewrite map_rep. f_equal. apply (mirror_row_zero mir 3).
  Qed.
End Run.
