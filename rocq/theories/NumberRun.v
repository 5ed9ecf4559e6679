(** * Sessions with nodes numbered and axes named in another way *)
From Coq Require Import List ZArith Bool Arith Lia Permutation Reals Lra.
Import ListNotations.
From Verif Require Import Num NumR Vec Handlers Material Analysis Truss Equil Solver Run ListFacts SpecRun SpecSame SpecNumber PickFacts NumberEval NumberPath MirrorRun.
Local Open Scope R_scope.

Section Run.
  Variable ax : v3 nat.
  Hypothesis Hax : axes ax.
  Notation turn := (turn ax).
  Notation turn_block := (turn_block ax).
  Notation turn_row := (turn_row ax).
  Notation comps := (comps ax).
  Variable rho : Z -> Z.
  Variable labels : list Z.
  Notation nn := (length labels).
  Hypothesis Hlab : NoDup labels.
  Hypothesis Hrho : forall a b, In a labels -> In b labels -> rho a = rho b -> a = b.
  Variable sg p : list nat.
  Hypothesis Hsg : order nn sg.
  Variable D1 D1' : list nat.
  Notation n := (length D1).
  Notation P := (p ++ [n]).
  Hypothesis Hu : unknown_order ax sg p D1 D1'.
  Hypothesis HN1 : NoDup D1.
  Hypothesis HW1 : within (3 * nn) D1'.
  Hypothesis HL1 : length D1' = n.
  Variable argsortF : list R -> list nat.
  Variable solve : list (list R) -> list R -> list R.
  Hypothesis Hsolve : order_blind solve.
  Hypothesis Hsort : lists_places argsortF.
  Notation Sim := (Sim ax labels sg p D1 D1').
  Notation rows_ok := (rows_ok labels).
  Notation nctx := (nctx ax rho sg).

  (** ** Load tables *)
  Definition turned_rows (l : list (list R)) : list (list R) := map turn_row (pick sg l).
  Lemma mod3_0 w : (w mod 3 = 0)%nat -> exists k, w = (3 * k)%nat.
  Proof. intros H. exists (w / 3)%nat. pose proof (Nat.div_mod w 3 ltac:(lia)). lia. Qed.
  Lemma block_ok s rows : rows_ok rows -> rows_ok (block s rows).
  Proof.
    intros [->|(L & w & Hw & F)]; [left; reflexivity|]. right. unfold block. rewrite map_length. split; [exact L|].
    destruct (mod3_0 _ Hw) as [k ->]. exists (Nat.min 3 (3 * k - 3 * s))%nat. split.
    - rewrite <- Nat.mul_sub_distr_l. destruct (k - s)%nat as [|i]; [reflexivity|]. rewrite Nat.min_l by lia. reflexivity.
    - apply Forall_map. eapply Forall_impl; [|exact F]. intros r Hr. cbn beta in *. rewrite firstn_length, skipn_length, Hr. reflexivity.
  Qed.
  Lemma ok_mod rows : rows_ok rows -> Forall (fun r => (length r mod 3 = 0)%nat) rows.
  Proof. intros [->|(L & w & Hw & F)]; [constructor|]. eapply Forall_impl; [|exact F]. intros r Hr. cbn beta in *. rewrite Hr. exact Hw. Qed.
  Lemma block_turned s rows : rows_ok rows -> block s (turned_rows rows) = turned_rows (block s rows).
  Proof.
    intros H. apply ok_mod in H. unfold block, turned_rows. rewrite pick_map, !map_map. apply (pick_Forall _ sg) in H.
    apply map_ext_in. intros r Hr. rewrite Forall_forall in H. apply turn_row_block; [exact Hax|]. apply H, Hr.
  Qed.
  Lemma add_scaled_turned acc l blk r : rows_ok acc -> rows_ok blk -> length acc = length blk -> add_scaled acc l blk = Ok r ->
    add_scaled (turned_rows acc) l (turned_rows blk) = Ok (turned_rows r) /\ rows_ok r /\ length r = length acc.
  Proof.
    intros Ha Hb HL. unfold add_scaled. destruct (forallb _ (combine acc blk)) eqn:E; [|discriminate]. intros H.
    assert (Hr : r = map2 (fun a b => map2 (fun x y => (x + l * y)%num) a b) acc blk) by congruence. clear H. subst r.
    assert (Lr : length (map2 (fun a b => map2 (fun x y => (x + l * y)%num) a b) acc blk) = length acc) by (rewrite map2_length; lia).
    set (f := fun a b => map2 (fun x y => (x + l * y)%num) a b) in *.
    assert (Er : Forall2 (fun a b => length a = length b) acc blk).
    { clear - E HL. revert blk HL E. induction acc as [|a acc IH]; intros [|b blk] HL E; try discriminate HL; constructor; cbn in E; apply andb_prop in E; destruct E as [E1 E2].
      - apply Nat.eqb_eq, E1.
      - apply IH; [cbn in HL; lia|exact E2]. }
    assert (Ep : Forall2 (fun a b => length a = length b) (pick sg acc) (pick sg blk)).
    { clear - Er. unfold pick. induction sg as [|i q IH]; [constructor|]. cbn. apply Forall2_app; [|exact IH].
      clear IH. revert i. induction Er as [|a b acc blk Hab Er IHe]; intros [|i]; cbn; [constructor|constructor|constructor; [exact Hab|constructor]|apply IHe]. }
    assert (Et : Forall2 (fun a b => length a = length b) (turned_rows acc) (turned_rows blk)).
    { unfold turned_rows. pose proof (pick_Forall _ sg _ (ok_mod _ Ha)) as M. clear - Ep M Hax. induction Ep as [|a b l l' Hab Ep IH]; cbn [map]; constructor.
      - inversion M; subst. rewrite !turn_row_length by (try exact Hax; rewrite <- ?Hab; assumption). exact Hab.
      - apply IH. inversion M; assumption. }
    assert (G : forallb (fun q => Nat.eqb (length (fst q)) (length (snd q))) (combine (turned_rows acc) (turned_rows blk)) = true).
    { clear - Et. induction Et as [|a b l l' Hab Et IH]; [reflexivity|]. cbn. rewrite Hab, Nat.eqb_refl. exact IH. }
    rewrite G. split; [|split; [|exact Lr]].
    - f_equal. unfold turned_rows. rewrite pick_map2 by exact HL. clear - Ep. induction Ep as [|a b l0 l' Hab Ep IH]; [reflexivity|]. cbn [map map2]. rewrite IH. f_equal.
      unfold f. symmetry. apply turn_row_map2, Hab.
    - destruct Ha as [->|(La & w & Hw & F)]; [left; reflexivity|]. right. split; [rewrite Lr; exact La|]. exists w. split; [exact Hw|].
      clear - Er F. induction Er as [|a b l0 l' Hab Er IH]; cbn [map2]; constructor.
      + unfold f. rewrite map2_length, <- Hab, Nat.min_id. inversion F; assumption.
      + apply IH. inversion F; assumption.
  Qed.
  Lemma const_forces_turned rows ends step fc : rows_ok rows -> const_forces rows ends step = Ok fc ->
    const_forces (turned_rows rows) ends step = Ok (turned_rows fc) /\ rows_ok fc.
  Proof.
    intros H3 H. unfold const_forces in *.
    eapply (foldM_rel (fun a a' => a' = turned_rows a /\ rows_ok a /\ length a = length rows) _ (fun acc s => match nth_error ends s with None => Err IndexError | Some l => add_scaled acc l (block s (turned_rows rows)) end)) with
      (x := map (map (fun _ => f0)) (block step (turned_rows rows))) in H.
    - destruct H as (y & Hy & -> & Hr & _). auto.
    - intros a' y a s _ (-> & Ha & La) Hs. cbn beta in *. destruct (nth_error ends s); [|discriminate]. rewrite block_turned by exact H3.
      destruct (add_scaled_turned _ _ _ _ Ha (block_ok s _ H3) ltac:(rewrite La; unfold block; rewrite map_length; reflexivity) Hs) as (-> & Hr & Lr). eexists. split; [reflexivity|].
      rewrite Lr. auto.
    - rewrite block_turned by exact H3. split; [|split].
      + unfold turned_rows. rewrite pick_map, !map_map. apply map_ext. intros r. symmetry. apply turn_row_map.
      + destruct (block_ok step _ H3) as [->|(L & w & Hw & F)]; [left; reflexivity|]. right. rewrite map_length. split; [exact L|]. exists w. split; [exact Hw|].
        apply Forall_map. eapply Forall_impl; [|exact F]. intros r Hr. cbn beta in *. rewrite map_length. exact Hr.
      + unfold block. rewrite !map_length. reflexivity.
  Qed.

  (** ** Steps *)
  Ltac open_sim HM := destruct HM as (?HD & ?HD' & (?LU & ?LU0 & ?Lr & ?LK & ?Rc & ?Rf & ?LUr & ?LVr) &
    ?Estep & ?EU & ?EU0 & ?Er & ?Eg & ?EK & ?Estr & ?Efrc & ?Ests & ?Est & ?Elpf & ?EdV & ?Ej & ?EuO & ?ED0 & ?EUr & ?EVr & ?Ef0 & ?EKr & ?Efc & ?Efo).
  Ltac simp_an :=
    cbn [a_step a_U a_U0 a_r a_g a_K a_stretch a_force a_stress a_DOF0 a_DOF1 a_Ured a_Vred a_lpf a_state a_dVmax a_j a_Kred a_Kmod a_f0red a_fconst a_forces
         set_step set_U set_U0 set_r set_g set_K set_stretch set_force set_stress set_Ured set_Vred set_lpf set_state set_dVmax set_j set_Kred set_Kmod set_f0red set_fconst set_forces].
  Ltac close_sim := split; [assumption|]; split; [assumption|]; split;
    [unfold sizes; simp_an; repeat (split; [first [assumption|idtac]|]); try assumption|];
    unfold renumbered_result; simp_an;
    repeat (split; [first [assumption|reflexivity|congruence|idtac]|]); try first [assumption|reflexivity|congruence].

  Lemma Lpn : length p = n.
  Proof. apply order_length, Hu. Qed.

  Lemma loads_turned rows f0r : rows_ok rows -> Forall (fun r => (length r <= 3)%nat) rows -> gather (concat rows) D1 = Ok f0r -> gather (concat (turned_rows rows)) D1' = Ok (pick p f0r).
  Proof.
    intros Hr H3 Hf.
    assert (C : Forall (fun r => length r = 3%nat) rows /\ length rows = nn \/ concat rows = [] /\ concat (turned_rows rows) = []).
    { destruct Hr as [->|(L & w & Hw & F)].
      - right. unfold turned_rows. rewrite pick_nil. auto.
      - destruct rows as [|r0 rows0]; [right; unfold turned_rows; rewrite pick_nil; auto|].
        assert (w = 0 \/ w = 3)%nat as [->| ->].
        { inversion F; subst. inversion H3; subst. destruct (length r0) as [|[|[|[|k]]]]; cbn in Hw; try lia; discriminate. }
        + right. assert (G : forall l : list (list R), Forall (fun r => length r = 0%nat) l -> concat l = []).
          { induction 1 as [|r l Hr H IH]; [reflexivity|]. cbn. destruct r; [exact IH|discriminate Hr]. }
          split; [apply G, F|]. apply G. unfold turned_rows. apply Forall_map. apply pick_Forall. eapply Forall_impl; [|exact F].
          intros r Hr. cbn beta in *. rewrite turn_row_length; [exact Hr|exact Hax|rewrite Hr; reflexivity].
        + left. auto. }
    destruct C as [[F L]|[E1 E2]].
    - unfold turned_rows. rewrite (concat_turn ax Hax) by exact F. apply (gather_turn ax Hax nn sg p D1 D1'); try assumption. 
      clear - F L. rewrite <- L. clear L. induction F as [|r l Hr F IH]; cbn [concat length]; [reflexivity|]. rewrite app_length, IH. lia.
    - rewrite E1 in Hf. rewrite E2. destruct D1 as [|d D]; [|cbn in Hf; destruct d; discriminate]. cbn in Hf. injection Hf as <-. rewrite pick_nil.
      destruct D1'; [reflexivity|discriminate HL1].
  Qed.

  Lemma setup_number rows step an an' R0 R0' ends out b : rows_ok rows -> Sim an an' -> step_setup rows step (Rs an R0 ends out) = Ok b ->
    exists b', step_setup (turned_rows rows) step (Rs an' R0' ends out) = Ok b' /\ Sim b b'.
  Proof.
    intros H3 HM H. unfold step_setup in *. cbn [r_an r_lpf_end] in *. cbv zeta in *. apply bind_ok in H. destruct H as (fc & Hfc & H).
    destruct (const_forces_turned _ _ _ _ H3 Hfc) as [-> Hfc3]. cbn [bind]. apply bind_ok in H. destruct H as (f0r & Hf & H). injection H as <-.
    pose proof (block_ok step rows H3) as Hb3. open_sim HM. rewrite HD in Hf. rewrite block_turned by exact H3. rewrite HD'.
    assert (Hb : Forall (fun r => (length r <= 3)%nat) (block step rows)) by (unfold block; apply Forall_map; apply Forall_forall; intros r _; apply firstn_le_length).
    rewrite (loads_turned _ _ Hb3 Hb Hf). cbn [bind]. eexists. split; [reflexivity|]. close_sim.
  Qed.

  Definition run_num (s s' : runst R) : Prop :=
    Sim (r_an s) (r_an s') /\ Forall2 Sim (r_R s) (r_R s') /\ r_lpf_end s' = r_lpf_end s /\ r_out s' = r_out s.

  Lemma path_number c a a' du dl j j' jpre cfg xl fuel t : c_labels c = labels -> length (c_coords c) = nn -> c_ndof1 c = n -> cf_jfixed cfg = true ->
    same_option (same_limit p) (cf_xlimit cfg) xl -> same_option (same_control p) j j' -> Sim a a' ->
    pathfollow solve argsortF (fun V V0 w a => equilibrium c V V0 w a) (fun U a => stiffness c U a) (a_Ured a) a (DxVec [du; dl]) j jpre cfg fuel = Ok t ->
    exists t', pathfollow solve argsortF (fun V V0 w a => equilibrium (nctx c) V V0 w a) (fun U a => stiffness (nctx c) U a) (a_Ured a') a' (DxVec [du; dl]) j' jpre (limit_cfg xl cfg) fuel = Ok t' /\
      pf_pick Sim p n t t'.
  Proof.
    intros Hc Hco Hn Hfix Hxl Hjj HM H. pose proof Lpn as Lp.
    destruct (pathfollow_pick solve argsortF (fun V V0 w a => equilibrium c V V0 w a) (fun V V0 w a => equilibrium (nctx c) V V0 w a)
      (fun U a => stiffness c U a) (fun U a => stiffness (nctx c) U a) Sim p n (proj1 Hu) Hsolve Hsort) with (Ured := a_Ured a) (a := a) (a' := a') (du := du) (dl := dl) (j := j) (j' := j') (jpre := jpre) (cfg := cfg) (xl := xl) (fuel := fuel) (t := t)
      as (t' & Ht & HP); try assumption.
    - intros V V0 w x x' y gr HV HV0 Hx Hy. exact (equilibrium_number ax Hax rho labels Hlab Hrho sg p Hsg D1 D1' Hu HN1 HW1 HL1 c V V0 w x x' y gr Hc Hco Hn HV HV0 Hx Hy).
    - intros V x x' y K HV Hx Hy. exact (stiffness_number ax Hax rho labels Hlab Hrho sg p Hsg D1 D1' Hu HN1 HW1 HL1 c V x x' y K Hc Hco Hn HV Hx Hy).
    - clear. intros j j' a a' Hj HM. open_sim HM. close_sim. 
    - clear. intros v v' a a' HM. open_sim HM. close_sim.
    - clear. intros v a a' HM. open_sim HM. close_sim.
    - clear. intros v a a' HM. open_sim HM. close_sim.
    - clear. intros v a a' HL HM. open_sim HM. close_sim.
    - clear - Lp. intros v a a' HL HM. open_sim HM. close_sim. right. exact HL.
    - clear. intros a a' HM. open_sim HM. exact Ef0.
    - clear - HM. open_sim HM. exact LUr.
    - exists t'. split; [|exact HP]. assert (EU : a_Ured a' = pick p (a_Ured a)) by (clear - HM; open_sim HM; exact EUr). rewrite EU. exact Ht.
  Qed.

  Lemma F2_removelast {A B} (Q : A -> B -> Prop) l l' : Forall2 Q l l' -> Forall2 Q (removelast l) (removelast l').
  Proof. induction 1 as [|x y l l' Hx H IH]; [constructor|]. cbn. destruct H; [constructor|]. constructor; assumption. Qed.
  Lemma F2_rev {A B} (Q : A -> B -> Prop) l l' : Forall2 Q l l' -> Forall2 Q (rev l) (rev l').
  Proof. induction 1; cbn; [constructor|]. apply Forall2_app; auto. Qed.
  Lemma write_number R0 R0' l l' : Forall2 Sim R0 R0' -> Forall2 Sim l l' ->
    Forall2 Sim (fold_left write_result l R0) (fold_left write_result l' R0').
  Proof.
    intros HR H. revert R0 R0' HR. induction H as [|a a' l l' Ha H IH]; intros R0 R0' HR; cbn [fold_left]; [exact HR|].
    apply IH. unfold write_result. apply Forall2_app; [apply F2_removelast, HR|]. auto.
  Qed.
  Lemma copy_U_number R0 R0' : Forall2 Sim R0 R0' -> Forall2 Sim (copy_U_last R0) (copy_U_last R0').
  Proof.
    intros H. unfold copy_U_last. pose proof (F2_rev _ _ _ H) as Hr. destruct Hr as [|a a' l l' Ha _]; [constructor|].
    apply Forall2_app; [apply F2_removelast, H|]. constructor; [|constructor]. clear - Ha. open_sim Ha. close_sim.
  Qed.
  Lemma zero_last_pick (v : list R) : v = [] \/ length v = S n -> zero_last (pick P v) = pick P (zero_last v) /\ (zero_last v = [] \/ length (zero_last v) = S n).
  Proof.
    intros [->|H]; [cbn [zero_last]; rewrite pick_nil; cbn [zero_last]; auto|]. destruct (exists_last (l := v)) as (u & l & ->); [intros ->; discriminate|]. rewrite app_length in H. cbn in H.
    assert (Lu : length u = n) by lia. pose proof (order_within _ _ (proj1 Hu)) as W.
    assert (Z0 : forall (u : list R) l, zero_last (u ++ [l]) = u ++ [0]). { intros u0 l0. unfold zero_last. destruct (u0 ++ [l0]) eqn:E; [destruct u0; discriminate|]. rewrite <- E, removelast_last. reflexivity. }
    rewrite pick_snoc, !Z0, pick_snoc by assumption. split; [reflexivity|]. right. rewrite app_length. cbn. lia.
  Qed.

  Lemma run_step_number c st st' rows nsteps fuel s s' step t : c_labels c = labels -> length (c_coords c) = nn -> c_ndof1 c = n -> renumbered_settings p st st' -> rows_ok rows -> run_num s s' ->
    run_step argsortF solve c st rows nsteps fuel s step = Ok t ->
    exists t', run_step argsortF solve (nctx c) st' (turned_rows rows) nsteps fuel s' step = Ok t' /\ run_num t t'.
  Proof.
    intros Hc Hco Hn (Hfix & j0' & xl' & -> & Hjj & Hxx) H3 HS H. destruct s as [an R0 ends out], s' as [an' R0' ends' out']. destruct HS as (HM & HR & E1 & E2). cbn [r_an r_R r_lpf_end r_out] in *. subst ends' out'.
    unfold run_step in *. cbn [with_unknowns s_incs s_xlimit s_du s_dlpf s_j0 s_jpre r_an r_R r_lpf_end r_out] in *.
    apply bind_ok in H. destruct H as (incs & -> & H). cbn [bind]. apply bind_ok in H. destruct H as (xl & Hxl & H).
    match goal with |- exists t', bind ?X _ = _ /\ _ => assert (Hxl' : exists x', X = Ok x' /\ same_limit p xl x') end.
    { clear - Hxl Hxx. destruct (s_xlimit st) as [x|l], xl' as [x'|l']; try contradiction.
      - injection Hxl as <-. exists x'. split; [reflexivity|exact Hxx].
      - cbn in Hxx. destruct Hxx as [|x x' l l' Hx Hxx]; [discriminate|]. cbn [at_step] in *.
        assert (F : Forall2 (same_limit p) (x :: l) (x' :: l')) by (constructor; assumption). revert Hxl F. generalize (x :: l), (x' :: l'). clear. intros l l' H F.
        revert step H. induction F as [|a b l l' Hab F IH]; intros [|k] H; cbn in *; try discriminate.
        + injection H as <-. eauto.
        + apply IH, H. }
    destruct Hxl' as (x' & -> & Hlim). cbn [bind].
    apply bind_ok in H. destruct H as (an1 & Han & H). destruct (setup_number _ _ _ _ _ R0' _ _ _ H3 HM Han) as (an1' & -> & HM1). cbn [bind].
    apply bind_ok in H. destruct H as (pf & Hpf & H).
    assert (Hcf : cf_jfixed (pf_config st xl incs) = true) by exact Hfix.
    assert (Hlc : same_option (same_limit p) (cf_xlimit (pf_config st xl incs)) (Some x')) by exact Hlim.
    destruct (path_number _ _ _ _ _ _ _ _ _ _ _ _ Hc Hco Hn Hcf Hlc Hjj HM1 Hpf) as (pf' & Hpf' & P1 & P1' & P2 & P3 & P4 & P5' & P5 & P6 & P7 & P8).
    change (pf_config (with_unknowns j0' xl' st) x' incs) with (limit_cfg (Some x') (pf_config st xl incs)). rewrite Hpf'. cbn [bind]. cbv zeta in *.
    assert (HR1 : Forall2 Sim (map snd (tl (ps_res pf))) (map snd (tl (ps_res pf')))).
    { clear - P7. assert (HT : Forall2 (rec_pick Sim p n) (tl (ps_res pf)) (tl (ps_res pf'))) by (destruct P7; [constructor|assumption]).
      induction HT as [|x y l l' Hx HT IH]; cbn; constructor; [apply Hx|exact IH]. }
    pose proof (copy_U_number _ _ (write_number _ _ _ _ HR HR1)) as HR2.
    set (R2 := copy_U_last (fold_left write_result (map snd (tl (ps_res pf))) R0)) in *.
    set (R2' := copy_U_last (fold_left write_result (map snd (tl (ps_res pf'))) R0')) in *.
    apply bind_ok in H. destruct H as (lpf & Hl & H).
    assert (Hl' : match rev R2' with [] => Err IndexError | a :: _ => Ok (a_lpf a) end = Ok lpf).
    { pose proof (F2_rev _ _ _ HR2) as Hr. destruct Hr as [|a a' l l' Ha _]; [discriminate|]. injection Hl as <-. f_equal. clear - Ha. open_sim Ha. exact Elpf. }
    rewrite Hl'. cbn [bind]. rewrite P8. destruct (Nat.ltb (step + 1) nsteps); injection H as <-; (eexists; split; [reflexivity|]); unfold run_num; cbn [r_an r_R r_lpf_end r_out].
    - split; [|split; [exact HR2|split; reflexivity]]. pose proof Lpn as Lp. pose proof (zero_last_pick (a_Vred (ps_an pf))) as ZL. clear - P1 Lp ZL. open_sim P1. destruct (ZL LVr) as [Z1 Z2]. rewrite <- Lp in Z1. close_sim.
    - split; [exact P1|]. split; [apply F2_removelast, HR2|]. split; reflexivity.
  Qed.

  (** ** Models *)
  Definition model_num (m m' : model R) : Prop :=
    exists u u' nh eh fh fh', m_built m = Some u /\ m_built m' = Some u' /\
      m_nodes m = Some nh /\ m_nodes m' = Some (NodeH (map rho (pick sg (n_labels nh))) (map turn (pick sg (n_coords nh)))) /\ n_labels nh = labels /\ length (n_coords nh) = nn /\
      m_elems m = Some eh /\ m_elems m' = Some (renamed_elems rho eh) /\
      m_forces m = Some fh /\ m_forces m' = Some fh' /\ e_rows fh' = turned_rows (e_rows fh) /\ rows_ok (e_rows fh) /\
      renumbered_settings p (m_set m) (m_set m') /\
      u_nnodes u' = u_nnodes u /\ u_ndof1 u = n /\ u_ndof1 u' = n /\ Sim (u_an u) (u_an u') /\
      Forall2 Sim (u_R u) (u_R u') /\ u_lpf_end u' = u_lpf_end u.

  Lemma run_number m m' fuel m1 out : model_num m m' -> run argsortF solve m fuel = Ok (m1, out) ->
    exists m1', run argsortF solve m' fuel = Ok (m1', out) /\ model_num m1 m1'.
  Proof.
    intros (u & u' & nh & eh & fh & fh' & B & B' & N1 & N2 & N3 & N4 & E1 & E2 & F1 & F2 & F3 & H3 & Hset & Q1 & Q2 & Q3 & HM & HR & HL) H.
    unfold run in *. cbv zeta in *. destruct Hset as (Hfix & j0' & xl' & Es & Hjj & Hxx). rewrite Es. cbn [with_unknowns s_log s_j0 s_stepcontrol s_reduce s_nstatev s_nsteps].
    replace (match j0' with Some _ => true | None => false end) with (match s_j0 (m_set m) with Some _ => true | None => false end) by (clear - Hjj; destruct (s_j0 (m_set m)), j0'; try contradiction; reflexivity).
    destruct (_ && _)%bool; [discriminate|]. destruct (_ && _)%bool; [discriminate|].
    rewrite B, N1, E1, F1 in H. rewrite B', N2, E2, F2. cbn [n_labels n_coords]. rewrite F3.
    destruct HR as [|r0 r0' R0 R0' Hr0 HR]; [discriminate|].
    apply bind_ok in H. destruct H as (s & Hs & H). injection H as <- <-.
    set (c := Ctx (n_labels nh) (n_coords nh) eh (u_nnodes u) (u_ndof1 u) (s_nstatev (m_set m))) in *.
    assert (Hset : renumbered_settings p (m_set m) (with_unknowns j0' xl' (m_set m))) by (split; [exact Hfix|]; exists j0', xl'; auto).
    assert (Hc : c_labels c = labels) by exact N3. assert (Hco : length (c_coords c) = nn) by exact N4.
    rewrite Q1, Q3, HL. replace (Ctx _ (map turn (pick sg (n_coords nh))) _ _ _ _) with (nctx c) by (unfold c, nctx; cbn; rewrite Q2; reflexivity).
    eapply (foldM_rel run_num _ (run_step argsortF solve (nctx c) (with_unknowns j0' xl' (m_set m)) (turned_rows (e_rows fh)) (Z.to_nat (s_nsteps (m_set m))) fuel)
      (seq 0 (Z.to_nat (s_nsteps (m_set m)))) (fun x y a b _ HP HF => run_step_number c (m_set m) _ (e_rows fh) _ fuel a x b y Hc Hco Q2 Hset H3 HP HF)
      _ (Rs (set_lpf f0 (set_Vred (a_Ured (u_an u') ++ [f0]) (u_an u'))) (r0' :: r0' :: R0') (u_lpf_end u) [])) in Hs.
    2:{ unfold run_num. cbn [r_an r_R r_lpf_end r_out]. split; [|auto]. pose proof Lpn as Lp. pose proof (order_within _ _ (proj1 Hu)) as W. clear - HM Lp W. open_sim HM. close_sim.
        - right. rewrite app_length. cbn. lia.
        - rewrite EUr, Lp, pick_snoc by assumption. reflexivity. }
    destruct Hs as (t & Ht & T1 & T2 & T3 & T4).
    rewrite Ht. cbn [bind]. rewrite T3, T4. eexists. split; [reflexivity|].
    exists (Built (u_nnodes u) (u_ndof1 u) (r_an s) (r_R s) (r_lpf_end s)), (Built (u_nnodes u) n (r_an t) (r_R t) (r_lpf_end s)), nh, eh, fh, fh'.
    cbn [m_built m_nodes m_elems m_bounds m_forces m_set u_nnodes u_ndof1 u_an u_R u_lpf_end]. repeat (split; [first [assumption|reflexivity]|]).
    reflexivity.
  Qed.

  Lemma play_number acts acts' : Forall2 (renumbered_action p) acts acts' -> forall m m' m1 out, model_num m m' -> play argsortF solve acts m = Ok (m1, out) ->
    exists m1', play argsortF solve acts' m' = Ok (m1', out) /\ model_num m1 m1'.
  Proof.
    induction 1 as [|x x' acts acts' Hx HA IH]; intros m m' m1 out HM H; cbn [play] in *.
    - injection H as <- <-. eauto.
    - destruct x as [fuel|st], x' as [fuel'|st']; try contradiction.
      + cbn in Hx. subst fuel'. apply bind_ok in H. destruct H as ([m2 o1] & H1 & H). destruct (run_number _ _ _ _ _ HM H1) as (m2' & -> & HM2). cbn [bind].
        apply bind_ok in H. destruct H as ([m3 o2] & H2 & H). injection H as <- <-. destruct (IH _ _ _ _ HM2 H2) as (m3' & -> & HM3). cbn [bind]. eauto.
      + eapply IH; [|exact H]. destruct HM as (u & u' & nh & eh & fh & fh' & B & B' & N1 & N2 & N3 & N4 & E1 & E2 & F1 & F2 & F3 & H3 & Hset & Q).
        exists u, u', nh, eh, fh, fh'. unfold with_settings. cbn [m_built m_nodes m_elems m_bounds m_forces m_set].
        do 12 (split; [assumption|]). split; [|exact Q]. destruct Hset as (_ & j0 & xl & -> & _). destruct Hx as (Hfix & j0' & xl' & -> & Hjj & Hxx).
        split; [exact Hfix|]. exists j0', xl'. auto.
  Qed.
End Run.
