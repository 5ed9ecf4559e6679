(** * C29 how far an increment moves, C74 a new model with the default settings *)
From Coq Require Import List ZArith Bool Arith Lia Permutation Reals Lra.
Import ListNotations.
From Verif Require Import Num NumR NumFix Vec Handlers Material Analysis Truss Equil Solver Run Default ListFacts EditFacts BuildFacts BuildProps SpecMech SpecBuild
  SpecSolver SpecStep SolverFacts PathFacts StepFacts SpecState SpecRun SpecRunR SpecValid RunFacts RecFacts ReachFacts SessionFacts RunProps
  ExRun PropBuild PropRun PropTerm PropTotal MoveRun.

Local Open Scope R_scope.

(** With a free control component no converged increment moves an active DOF by more
    than dxtol times du, or the load factor by more than dxtol times dlpf; with step
    control the bound grows by the largest factor, maxfac*(1+increase). *)
Theorem C29_moves : forall argsortZ argsortF solve P m ns ms bs fs m1 fuel m2 out logs,
  argsort_ok argsortZ -> described m ns ms bs fs -> session argsortF solve argsortZ P m m1 ->
  ran_as argsortF solve m1 fuel m2 out logs ->
  (forall u, m_built m1 = Some u -> (1 <= u_ndof1 u)%nat) ->
  let st := m_set m1 in
  s_jfixed st = false -> 0 < s_du st -> 0 < s_dlpf st -> 0 <= s_dxtol st ->
  (s_stepcontrol st = true -> 0 < s_minfac st <= 1 /\ 1 <= s_maxfac st /\ 1 <= s_reduce st /\ 0 <= s_increase st) ->
  exists u1, m_built m1 = Some u1 /\
  forall lg, In lg logs -> exists recs, good_part lg recs /\
    along (fun x0 a0 x a =>
      length x = S (u_ndof1 u1) /\ length x0 = S (u_ndof1 u1) /\
      forall i xi yi, nth_error x i = Some xi -> nth_error x0 i = Some yi ->
        Rabs (xi - yi) <= s_dxtol st * (if s_stepcontrol st then s_maxfac st * (1 + s_increase st) else 1)
                          * (if (i <? u_ndof1 u1)%nat then s_du st else s_dlpf st))
          (a_Ured (lg_start lg) ++ [f0]) (lg_start lg) recs.
Proof.
  intros argsortZ argsortF solve P m ns ms bs fs m1 fuel m2 out logs HA Hd HS HL H1 st Hf Hdu Hdl Htol Hsc.
  set (top := if s_stepcontrol st then s_maxfac st * (1 + s_increase st) else 1).
  destruct (moves_all argsortZ argsortF solve P m ns ms bs fs m1 fuel m2 out logs
     (fun _ d => exists f, 0 < f <= top /\ (s_stepcontrol st = true -> s_minfac st / s_reduce st <= f) /\
        exists u, m_built m1 = Some u /\ d = map (fun v => v * f) (repeat (s_du st) (u_ndof1 u) ++ [s_dlpf st])) HA Hd HS HL H1 Hf)
    as (u1 & nh & eh & E1 & H). cbv zeta in H. specialize (H1 _ E1).
  assert (Hx : expand_dxmax (S (u_ndof1 u1)) (DxVec [s_du st; s_dlpf st]) = repeat (s_du st) (u_ndof1 u1) ++ [s_dlpf st]).
  { unfold expand_dxmax. cbn. rewrite Nat.sub_0_r. f_equal. generalize (u_ndof1 u1). clear.
    intros n. induction n as [|n IH]; [reflexivity|]. cbn. rewrite IH. f_equal. numR. lra. }
  exists u1. split; [exact E1|].
  intros lg Hin. destruct (fun G1 G2 => H G1 G2 lg Hin) as (recs & Hg & Hal).
  - intros incs xl. fold st. rewrite Hx. split; [split|].
    + intros x0 pre s xmax ts t j valid dxmax' z' b' changed Hi Hpass.
      destruct (s_stepcontrol st) eqn:Esc.
      * specialize (Hsc eq_refl). destruct Hsc as (Hmi & Hma & Hre & Hin0).
        destruct (bounds_keep solve argsortF (equilibrium (ctx_of m1 u1 nh eh)) (stiffness (ctx_of m1 u1 nh eh))
          (pf_config st xl incs) (repeat (s_du st) (u_ndof1 u1) ++ [s_dlpf st])) as [K1 K2].
        { unfold control_params. cbn. lra. }
        { intros v Hv. destruct (u_ndof1 u1); [lia|]. cbn in Hv. injection Hv as <-. exact Hdu. }
        assert (Hpos : 0 < s_minfac st / s_reduce st) by (apply Rdiv_lt_0_compat; lra).
        assert (HI : forall d, bounds_I (pf_config st xl incs) (repeat (s_du st) (u_ndof1 u1) ++ [s_dlpf st]) 0 d ->
          exists f, 0 < f <= top /\ (true = true -> s_minfac st / s_reduce st <= f) /\
            exists u, m_built m1 = Some u /\ d = map (fun v => v * f) (repeat (s_du st) (u_ndof1 u) ++ [s_dlpf st])).
        { intros d (f & B & Hm). cbn in B. exists f. unfold top. split; [lra|]. split; [intros _; lra|]. exists u1. split; [exact E1|exact Hm]. }
        destruct Hi as (f & B & Bm & u & Eu & Ed). assert (u = u1) by congruence. subst u.
        destruct (K1 x0 pre s xmax ts t j valid dxmax' z' b' changed) as [R1 R2].
        { exists f. cbn. specialize (Bm eq_refl). unfold top in B. split; [lra|exact Ed]. }
        { exact Hpass. }
        split; apply HI; assumption.
      * destruct Hpass as (xs & Dx & q & i1 & v1 & _ & _ & _ & _ & _ & _ & _ & _ & _ & Hcc).
        cbn in Hcc. rewrite Esc in Hcc. destruct Hcc as (-> & _). split; exact Hi.
    + auto.
    + exists 1. unfold top. split; [|split].
      * destruct (s_stepcontrol st); [destruct (Hsc eq_refl) as (? & ? & ? & ?); split; [lra|nra]|lra].
      * intros E. destruct (Hsc E) as (? & ? & ? & ?). apply (Rmult_le_reg_r (s_reduce st)); [lra|]. unfold Rdiv. rewrite Rmult_assoc, Rinv_l; lra.
      * exists u1. split; [exact E1|]. symmetry. etransitivity; [|apply map_id]. apply map_ext. intros v. lra.
  - intros _ d (f & _ & _ & u & Eu & ->). assert (u = u1) by congruence. subst u. rewrite map_length, app_length, repeat_length. cbn. lia.
  - exists recs. split; [exact Hg|]. eapply along_mono; [|exact Hal]. cbv beta.
    intros x0 a0 x a (L1 & L2 & Hk). split; [exact L1|]. split; [exact L2|]. intros i xi yi Ei Ej.
    assert (Hw : 0 < (if (i <? u_ndof1 u1)%nat then s_du st else s_dlpf st)) by (destruct (i <? u_ndof1 u1)%nat; assumption).
    assert (Ht : 0 < top).
    { unfold top. destruct (s_stepcontrol st); [destruct (Hsc eq_refl) as (? & ? & ? & ?); nra|lra]. }
    destruct Hk as [->|((f & B & _ & u & Eu & Ed) & Hk)].
    + assert (yi = xi) by congruence. subst yi. replace (xi - xi) with 0 by lra. rewrite Rabs_R0.
      apply Rmult_le_pos; [apply Rmult_le_pos; lra|lra].
    + assert (u = u1) by congruence. subst u.
      assert (Hi : (i < length x)%nat) by (apply nth_error_Some; rewrite Ei; discriminate).
      assert (Ew : nth_error (a_dVmax a) i = Some ((if (i <? u_ndof1 u1)%nat then s_du st else s_dlpf st) * f)).
      { rewrite Ed, nth_error_map. destruct (Nat.ltb_spec i (u_ndof1 u1)) as [Q|Q].
        - rewrite nth_error_app1 by (rewrite repeat_length; lia). rewrite nth_error_repeat. apply Nat.ltb_lt in Q. rewrite Q. reflexivity.
        - rewrite nth_error_app2 by (rewrite repeat_length; lia). rewrite repeat_length. replace (i - u_ndof1 u1)%nat with O by (clear - Hi L1 Q; cbn in *; lia). reflexivity. }
      set (w := if (i <? u_ndof1 u1)%nat then s_du st else s_dlpf st) in *.
      assert (Pw : 0 < w * f) by (apply Rmult_lt_0_compat; lra).
      specialize (Hk _ _ _ _ Ei Ej Ew ltac:(lra)). rewrite (Rabs_pos_eq (w * f)) in Hk by lra.
      eapply Rle_trans; [exact Hk|]. rewrite Rmult_assoc. apply Rmult_le_compat_l; [exact Htol|]. rewrite (Rmult_comm top). apply Rmult_le_compat_l; lra.
Qed.
Print Assumptions C29_moves.

(** ** C74 a new model with the default settings *)
Section Built.
  Context {F : Type} `{NF : Num F}.

  Lemma build_settings A (m m' : model F) : build A m = Ok m' -> exists k, m_set m' = with_nstatev k (m_set m).
  Proof.
    intros H. destruct (build_inv A m m' H) as (nh0 & eh & nh & bh & fh & D0 & D1 & an & E1 & E2 & Ef & Eb & Eo & C1 & C2 & Hd0 & Hd1 & Han & Em).
    cbn zeta in Em. subst m'. eexists. reflexivity.
  Qed.
End Built.

(** Nodes, members, supports and loads of at least one step are given, nothing is
    set: the run comes to its end after at most four Newton runs per increment. *)
Theorem C74_returns : forall F (NF : Num F) argsortZ argsortF solve log (m : model F) ns ms bs fs l0 c0,
  argsort_ok argsortZ -> (forall l, Permutation (argsortF l) (seq 0 (length l))) ->
  (forall M b, length M = length b -> length (solve M b) = length b) ->
  described m ns ms bs fs -> m_set m = new_settings log -> (forall b, In b ms -> complete b) ->
  fs <> [] -> (forall r, In r (map snd fs) -> (3 <= length r)%nat) -> m_bounds m = None \/ bs <> [] -> matches ns bs -> matches ns fs ->
  In l0 (map fst ns) -> (c0 < 3)%nat -> nth c0 (row_for bs [1; 1; 1]%Z l0) 0%Z = 1%Z ->
  exists m1 u, build argsortZ m = Ok m1 /\ m_built m1 = Some u /\ (1 <= u_ndof1 u)%nat /\
    ((exists m2 out, run argsortF solve m1 4 = Ok (m2, out)) \/
     (run argsortF solve m1 4 = Err ValueError /\ exists v : F, fisnan v = true)).
Proof.
  intros F NF argsortZ argsortF solve log m ns ms bs fs l0 c0 HA Hsort Hsolve Hd Hset Hc Hfs Hw Hb Hmb Hmf Hl0 Hc0 Hfree.
  pose proof Hd as (D1 & D2 & D3 & (eh & De & _) & D5 & D6 & _ & D8 & _).
  destruct (C01_build_succeeds _ _ argsortZ m ns bs fs HA D1 D2 D3 D6 D5 ltac:(rewrite De; discriminate)
    ltac:(intros E; rewrite E in D3; exact (Hfs D3)) Hb D8 Hmb Hmf) as (m1 & Hbuild).
  destruct (C03_dof_partition _ _ _ _ _ _ _ _ HA D1 D2 D3 D6 D5 D8 Hbuild) as (nh & u & En & Eu & Hp & _ & _ & _ & Hnd & _).
  destruct (build_reached _ _ _ _ _ _ _ HA Hd Hbuild) as (nh' & _ & fh & _ & ns' & En' & _ & Ef & _ & Hns' & Hperm & Hfw & Hfa & _).
  assert (nh' = nh) by congruence. subst nh'.
  assert (H1 : (1 <= u_ndof1 u)%nat).
  { rewrite En in Hns'. destruct Hns' as [Hlab _].
    assert (Hin : In l0 (n_labels nh)) by (rewrite Hlab; eapply Permutation_in; [apply Permutation_map, Permutation_sym, Hperm|exact Hl0]).
    apply In_nth_error in Hin. destruct Hin as (p & Hin). destruct (Hp _ _ _ Hin Hc0) as [[_ G] _]. specialize (G Hfree).
    rewrite Hnd. destruct (a_DOF1 (u_an u)); [destruct G|cbn; lia]. }
  destruct (build_settings _ _ _ Hbuild) as (k & Hk). rewrite Hset in Hk.
  exists m1, u. split; [exact Hbuild|]. split; [exact Eu|]. split; [exact H1|].
  destruct (C71_run F NF argsortZ argsortF solve (fun _ => True) m ns ms bs fs m1 u 4 HA Hsort Hsolve Hd (s_build _ _ _ _ _ _ Hbuild) Hc Eu H1)
    as [H|[H|(H & _ & Hn)]].
  - rewrite Hk. unfold usable. cbn. repeat split; try lia; try discriminate; auto.
  - intros fh' r Ef' Hr. assert (fh' = fh) by congruence. subst fh'. rewrite Hk. cbn.
    assert (Hwd : (3 <= e_width fh)%nat).
    { destruct (m_forces m) as [fh0|] eqn:E0; [|cbn in D3; contradiction]. rewrite <- (Hfw _ eq_refl). destruct D3 as (_ & G2 & G3).
      destruct fs as [|[l r0] fs]; [contradiction|]. rewrite G2 in G3. inversion_clear G3. cbn in *. rewrite <- H. apply Hw. now left. }
    rewrite Ef in Hfa. destruct Hfa as (_ & _ & G). rewrite Forall_forall in G. rewrite (G _ Hr). cbn. lia.
  - left. exact H.
  - exfalso. eapply (C30_run_plain F NF argsortF solve m1 4); [| | |exact H]; rewrite Hk; cbn; [reflexivity|lia|lia].
  - right. split; [exact H|exact Hn].
Qed.
Print Assumptions C74_returns.

(** In exact arithmetic it returns, after one step of 50 increments or after fewer and
    an error line; every converged increment is in equilibrium to 10^-8 and moves
    each active DOF and the load factor by 0.02000002 at most. *)
Theorem C74_numbers : forall argsortZ argsortF solve log (m : model R) ns ms bs fs l0 c0,
  argsort_ok argsortZ -> (forall l, Permutation (argsortF l) (seq 0 (length l))) ->
  (forall M b, length M = length b -> length (solve M b) = length b) ->
  described m ns ms bs fs -> m_set m = new_settings log -> (forall b, In b ms -> complete b) ->
  fs <> [] -> (forall r, In r (map snd fs) -> (3 <= length r)%nat) -> m_bounds m = None \/ bs <> [] -> matches ns bs -> matches ns fs ->
  In l0 (map fst ns) -> (c0 < 3)%nat -> nth c0 (row_for bs [1; 1; 1]%Z l0) 0%Z = 1%Z ->
  exists m1 m2 out lg, build argsortZ m = Ok m1 /\ run argsortF solve m1 4 = Ok (m2, out) /\ ran_as argsortF solve m1 4 m2 out [lg] /\
    (length (lg_recs lg) <= 50)%nat /\
    ((length (lg_recs lg) < 50)%nat -> exists e, In e (lg_out lg) /\ error_line e) /\
    (exists recs, good_part lg recs /\
      along (fun x0 a0 x a => (residual_is a /\ balanced (powerRZ 10 (- 8)) x0 x a) \/ x = x0)
            (a_Ured (lg_start lg) ++ [f0]) (lg_start lg) recs) /\
    (exists recs, good_part lg recs /\
      along (fun x0 a0 x a => forall i xi yi, nth_error x i = Some xi -> nth_error x0 i = Some yi -> Rabs (xi - yi) <= 2000002 / 100000000)
            (a_Ured (lg_start lg) ++ [f0]) (lg_start lg) recs).
Proof.
  intros argsortZ argsortF solve log m ns ms bs fs l0 c0 HA Hsort Hsolve Hd Hset Hc Hfs Hw Hb Hmb Hmf Hl0 Hc0 Hfree.
  destruct (C74_returns R _ argsortZ argsortF solve log m ns ms bs fs l0 c0 HA Hsort Hsolve Hd Hset Hc Hfs Hw Hb Hmb Hmf Hl0 Hc0 Hfree)
    as (m1 & u & Hbuild & Eu & H1 & [(m2 & out & Hr)|(_ & v & Hv)]); [|exfalso; unfold fisnan in Hv; cbn in Hv; unfold Reqb in Hv; destruct (Req_EM_T v v); [discriminate|contradiction]].
  destruct (build_settings _ _ _ Hbuild) as (k & Hk). rewrite Hset in Hk.
  destruct (C28_steps R _ argsortF solve m1 4 m2 out Hr) as (logs & HL & Hlen & Hlogs); [rewrite Hk; cbn; lia|].
  rewrite Hk in Hlen. cbn in Hlen. destruct logs as [|lg [|? ?]]; cbn in Hlen; try lia.
  assert (H1' : forall u, m_built m1 = Some u -> (1 <= u_ndof1 u)%nat) by (intros u' E; assert (u' = u) by congruence; subst; exact H1).
  pose proof (s_build argsortF solve argsortZ (fun _ => True) m m1 Hbuild) as HS.
  destruct (Hlogs 0%nat lg eq_refl) as (incs & xl & Hi & Hx & L1 & _ & L2). rewrite Hk in Hi, Hx. cbn in Hi, Hx. subst incs xl.
  exists m1, m2, out, lg. split; [exact Hbuild|]. split; [exact Hr|]. split; [exact HL|]. split; [change (Z.max 0 50) with 50%Z in L1; apply Nat2Z.inj_le; exact L1|]. split; [|split].
  - intros Hl. destruct L2 as [L2|(rs & x & a & i & lim & xi & _ & E & _)]; [apply Nat2Z.inj_lt in Hl; exact Hl|exact L2|discriminate].
  - destruct (C26_equilibrium _ _ _ _ _ _ _ _ _ _ _ _ _ _ HA Hd HS HL H1' lg (or_introl eq_refl)) as (recs & Hg & Hal).
    exists recs. split; [exact Hg|]. eapply along_mono; [|exact Hal]. rewrite Hk. cbn [s_ftol with_nstatev new_settings]. cbv beta. tauto.
  - destruct (C29_moves _ _ _ _ _ _ _ _ _ _ _ _ _ _ HA Hd HS HL H1') as (u1 & Eu1 & Hal).
    1-5: rewrite Hk; cbn; unfold dec; cbn; numR; try lra; try reflexivity; try discriminate.
    destruct (Hal lg (or_introl eq_refl)) as (recs & Hg & Hall).
    exists recs. split; [exact Hg|]. eapply along_mono; [|exact Hall]. cbv beta. rewrite Hk. cbn. unfold dec. cbn. numR.
    intros x0 a0 x a (_ & _ & Hm) i xi yi Ei Ej. specialize (Hm _ _ _ Ei Ej). destruct (match u_ndof1 u1 with 0%nat => false | S m' => (i <=? m')%nat end); lra.
Qed.
Print Assumptions C74_numbers.

(** The sample truss with the default settings. *)
Example C74_meets : forall solve : list (list R) -> list R -> list R,
  (forall M b, length M = length b -> length (solve M b) = length b) ->
  exists m1 m2 out, build argsort_ins (xr_at (new_settings 2)) = Ok m1 /\ run (fun l => seq 0 (length l)) solve m1 4 = Ok (m2, out).
Proof.
  intros solve Hsolve.
  destruct (C74_numbers argsort_ins (fun l => seq 0 (length l)) solve 2 (xr_at (new_settings 2)) _ _ _ _ 2%Z 1%nat argsort_ins_ok
    (fun l => Permutation_refl _) Hsolve (xr_described _) eq_refl) as (m1 & m2 & out & lg & H1 & H2 & _).
  - intros b [<- | [<- | []]]; split; cbn; try discriminate; lia.
  - discriminate.
  - intros r [<- | []]. cbn. lia.
  - right. discriminate.
  - split; [repeat constructor; cbn; intros H; repeat destruct H as [H|H]; try discriminate; auto|]. intros l. cbn. tauto.
  - split; [repeat constructor; cbn; intros H; repeat destruct H as [H|H]; try discriminate; auto|]. intros l. cbn. tauto.
  - cbn. tauto.
  - lia.
  - reflexivity.
  - eauto.
Qed.
