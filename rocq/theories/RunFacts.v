(** * The structure of Model.run *)
From Coq Require Import List ZArith Bool Arith Lia.
Import ListNotations.
From Verif Require Import Num Vec Handlers Material Analysis Truss Equil Solver Run ListFacts
  SpecSolver SolverFacts PathFacts SpecRun.

Lemma last_snd {A B} (l : list (A * B)) x x' b : snd (last l (x, b)) = snd (last l (x', b)).
Proof.
  destruct l as [|p l]; [reflexivity|]. f_equal. revert p. induction l as [|q l IH]; intros p; [reflexivity|].
  cbn [last] in *. apply IH.
Qed.

Lemma rev_cons_last {A} (l : list A) a l' : rev l = a :: l' -> l = rev l' ++ [a].
Proof. intros H. rewrite <- (rev_involutive l), H. reflexivity. Qed.

Section RunFacts.
  Context {F : Type} `{NF : Num F}.
  Variable argsortF : list F -> list nat.
  Variable solve : list (list F) -> list F -> list F.
  Local Open Scope num_scope.

  (** ** Constant forces *)
  Lemma add_scaled_ok (acc blk out : list (list F)) l :
    add_scaled acc l blk = Ok out -> length acc = length blk ->
    length out = length acc /\
    forall i a b, nth_error acc i = Some a -> nth_error blk i = Some b ->
      length a = length b /\ nth_error out i = Some (map2 (fun x y => x + l * y) a b).
  Proof.
    unfold add_scaled. destruct (forallb _ _) eqn:E; [|discriminate]. intros H Hl. injection H as <-.
    revert blk Hl E. induction acc as [|a acc IH]; intros [|b blk] Hl E; try discriminate.
    - split; [reflexivity|]. intros [|i] ? ? H; discriminate.
    - cbn [combine forallb fst snd] in E. apply andb_prop in E. destruct E as [E1 E2].
      apply Nat.eqb_eq in E1. cbn in Hl. destruct (IH blk ltac:(lia) E2) as [I1 I2].
      cbn [map2]. split; [cbn [length]; lia|].
      intros [|i] a' b' Ha Hb; cbn in Ha, Hb |- *; [|eauto].
      injection Ha as <-. injection Hb as <-. auto.
  Qed.

  Lemma nth_error_map2 {A B C} (f : A -> B -> C) la lb i :
    length la = length lb ->
    nth_error (map2 f la lb) i =
      match nth_error la i, nth_error lb i with Some a, Some b => Some (f a b) | _, _ => None end.
  Proof.
    revert lb i. induction la as [|a la IH]; intros [|b lb] [|i] H; try discriminate; try reflexivity.
    cbn in *. apply IH. lia.
  Qed.

  Lemma map2_len {A B C} (f : A -> B -> C) la lb : length la = length lb -> length (map2 f la lb) = length la.
  Proof.
    revert lb. induction la as [|a la IH]; intros [|b lb] H; try discriminate; auto.
    cbn in *. rewrite IH; lia.
  Qed.

  Lemma history_S lpfs row s d :
    history lpfs row (S s) d = history lpfs row s d + nth s lpfs f0 * nth (3 * s + d) row f0.
  Proof. unfold history. rewrite seq_S, fold_left_app. reflexivity. Qed.

  Lemma nth_firstn_skipn (r : list F) s d v :
    nth_error (firstn 3 (skipn (3 * s) r)) d = Some v -> nth (3 * s + d) r f0 = v.
  Proof.
    intros H. assert (Hd : (d < 3)%nat).
    { assert (d < length (firstn 3 (skipn (3 * s) r)))%nat by (apply nth_error_Some; congruence).
      rewrite firstn_length in *. lia. }
    rewrite <- (firstn_skipn 3 (skipn (3 * s) r)) in *.
    assert (H' : nth_error (skipn (3 * s) r) d = Some v).
    { rewrite <- (firstn_skipn 3 (skipn (3 * s) r)). rewrite nth_error_app1; [|apply nth_error_Some].
      - rewrite firstn_app, firstn_firstn in H. cbn [Nat.min] in H.
        rewrite firstn_length in H. 
        destruct (Nat.le_gt_cases 3 (length (skipn (3 * s) r))) as [L|L].
        + replace (3 - Nat.min 3 (length (skipn (3 * s) r)))%nat with 0%nat in H by lia.
          rewrite firstn_O, app_nil_r in H. exact H.
        + rewrite (skipn_all2 (skipn (3 * s) r)) in H by lia. rewrite firstn_nil, app_nil_r in H. exact H.
      - rewrite firstn_app, firstn_firstn in H. cbn [Nat.min] in H.
        rewrite firstn_length in H.
        destruct (Nat.le_gt_cases 3 (length (skipn (3 * s) r))) as [L|L].
        + replace (3 - Nat.min 3 (length (skipn (3 * s) r)))%nat with 0%nat in H by lia.
          rewrite firstn_O, app_nil_r in H. congruence.
        + rewrite (skipn_all2 (skipn (3 * s) r)) in H by lia. rewrite firstn_nil, app_nil_r in H. congruence. }
    assert (E : nth_error r (3 * s + d) = Some v).
    { rewrite <- (firstn_skipn (3 * s) r).
      assert (Hl : (3 * s <= length r)%nat).
      { destruct (Nat.le_gt_cases (3 * s) (length r)); [assumption|].
        rewrite skipn_all2 in H' by lia. destruct d; discriminate. }
      rewrite nth_error_app2; rewrite firstn_length; rewrite Nat.min_l by lia; [|lia].
      replace (3 * s + d - 3 * s)%nat with d by lia. exact H'. }
    apply nth_error_nth. exact E.
  Qed.

  Lemma const_forces_ok (rows : list (list F)) lpfs s fconst :
    const_forces rows lpfs s = Ok fconst -> superposed rows lpfs s fconst.
  Proof.
    unfold const_forces.
    set (step := fun (acc : list (list F)) t => match nth_error lpfs t with
                 | Some l => add_scaled acc l (block t rows) | None => Err IndexError end).
    assert (G : forall k acc, (k <= s)%nat ->
      foldM step (seq 0 k) (map (map (fun _ => f0)) (block s rows)) = Ok acc ->
      length acc = length rows /\
      forall i row, nth_error rows i = Some row ->
        exists frow, nth_error acc i = Some frow /\ length frow = length (firstn 3 (skipn (3 * s) row)) /\
          forall d, (d < length frow)%nat -> nth_error frow d = Some (history lpfs row k d)).
    { induction k as [|k IH]; intros acc Hk H.
      - cbn in H. injection H as <-. unfold block. rewrite !map_length. split; [reflexivity|].
        intros i row Hr. exists (map (fun _ => f0) (firstn 3 (skipn (3 * s) row))).
        rewrite nth_error_map, nth_error_map, Hr. cbn [option_map]. rewrite map_length.
        repeat split. intros d Hd. rewrite nth_error_map.
        destruct (nth_error _ d) eqn:E; [reflexivity|]. apply nth_error_None in E. lia.
      - rewrite seq_S, foldM_app in H. apply bind_ok in H. destruct H as (acc0 & H0 & H).
        apply IH in H0; [|lia]. destruct H0 as [L0 H0].
        cbn [foldM] in H. apply bind_ok in H. destruct H as (acc1 & H1 & H). injection H as <-.
        unfold step in H1. cbn [Nat.add] in H1. destruct (nth_error lpfs k) as [l|] eqn:El; [|discriminate].
        apply add_scaled_ok in H1; [|unfold block; rewrite map_length; exact L0].
        destruct H1 as [L1 H1]. split; [congruence|].
        intros i row Hr. destruct (H0 _ _ Hr) as (frow & Hf & Hlf & Hd).
        assert (Hb : nth_error (block k rows) i = Some (firstn 3 (skipn (3 * k) row))).
        { unfold block. rewrite nth_error_map, Hr. reflexivity. }
        destruct (H1 _ _ _ Hf Hb) as [Hl2 Ho]. eexists. split; [exact Ho|].
        rewrite map2_len by exact Hl2. split; [exact Hlf|].
        intros d Hdd. rewrite nth_error_map2 by exact Hl2. rewrite (Hd d Hdd).
        destruct (nth_error (firstn 3 (skipn (3 * k) row)) d) as [v|] eqn:Ev.
        + rewrite history_S. rewrite (nth_error_nth _ _ f0 El). rewrite (nth_firstn_skipn _ _ _ _ Ev). reflexivity.
        + apply nth_error_None in Ev. lia. }
    intros H. apply (G s fconst); [lia|exact H].
  Qed.

  Lemma step_setup_ok rows k (s : runst F) an :
    step_setup rows k s = Ok an -> step_starts rows (r_lpf_end s) k (r_an s) an.
  Proof.
    unfold step_setup. intros H. apply bind_ok in H. destruct H as (fc & Hfc & H). cbv zeta in H.
    apply bind_ok in H. destruct H as (fr & Hfr & H). injection H as <-.
    apply const_forces_ok in Hfc.
    unfold step_starts. cbn. repeat match goal with |- _ /\ _ => split end; try assumption; reflexivity.
  Qed.

  (** ** pathfollow's list of results and final object *)
  Lemma pathfollow_shape g dg Ured an d j jpre cfg fuel s :
    pathfollow solve argsortF g dg Ured an d j jpre cfg fuel = Ok s ->
    exists recs, ps_res s = (Ured ++ [f0], an) :: recs /\
      (ps_x s, ps_an s) = last recs (Ured ++ [f0], an).
  Proof.
    intros H.
    eapply (pathfollow_ok solve argsortF g dg cfg _ (fun _ _ => True) (fun _ _ => True) jpre) in H;
      [|apply keeps_True|unfold quiet; auto 10|reflexivity|exact I|auto].
    destruct H as (recs & H1 & _ & H2 & _). exists recs. auto.
  Qed.

  (** ** The list of results *)
  Lemma write_results (new : list (analysis F)) : forall done w,
    fold_left write_result new (done ++ [w]) = done ++ new ++ [last new w].
  Proof.
    induction new as [|a new IH]; intros done w; [reflexivity|].
    cbn [fold_left]. unfold write_result at 2. rewrite removelast_last.
    change (done ++ [a; a]) with (done ++ [a] ++ [a]). rewrite app_assoc, IH, <- app_assoc.
    cbn [app]. do 3 f_equal. destruct new as [|b new]; [reflexivity|].
    cbn [last]. clear IH. revert b. induction new as [|q new IH]; intros b; [reflexivity|]. cbn [last] in *. apply IH.
  Qed.

  Lemma copy_U_snoc (R : list (analysis F)) a : copy_U_last (R ++ [a]) = R ++ [set_U0 (a_U a) a].
  Proof. unfold copy_U_last. rewrite rev_app_distr. cbn [rev app]. rewrite removelast_last. reflexivity. Qed.

  Lemma lg_end_last (lg : step_log F) (w : analysis F) :
    lg_end (a_lpf w) lg = a_lpf (last (lg_results lg) w).
  Proof.
    unfold lg_end, lg_results. destruct (rev (lg_recs lg)) as [|p l] eqn:E.
    - apply (f_equal (@rev _)) in E. rewrite rev_involutive in E. rewrite E. reflexivity.
    - apply rev_cons_last in E. rewrite E, map_app. cbn [map]. rewrite last_last. reflexivity.
  Qed.

  Lemma at_step_in {A} (p : perstep A) k x : at_step p k = Ok x <-> in_step p k x.
  Proof.
    unfold at_step, in_step. destruct p as [y|l]; [split; [intros H; injection H; auto|intros ->; reflexivity]|].
    destruct (nth_error l k) as [y|]; split; intros H; try discriminate H; injection H as ->; reflexivity.
  Qed.

  (** One step of the run. *)
  Lemma run_step_ok c st rows nsteps fuel done w s k s' :
    run_step argsortF solve c st rows nsteps fuel s k = Ok s' ->
    r_R s = done ++ [w] ->
    exists lg, step_starts rows (r_lpf_end s) k (r_an s) (lg_start lg) /\
      step_ran argsortF solve c st fuel k lg /\
      r_lpf_end s' = r_lpf_end s ++ [lg_end (a_lpf w) lg] /\
      r_out s' = r_out s ++ lg_out lg /\
      (if Nat.ltb (k + 1) nsteps
       then r_an s' = handed_over (lg_final lg) /\
            exists w', r_R s' = (done ++ lg_results lg) ++ [w'] /\ a_lpf w' = lg_end (a_lpf w) lg
       else r_an s' = lg_final lg /\ r_R s' = done ++ lg_results lg).
  Proof.
    intros H HR. unfold run_step in H.
    apply bind_ok in H. destruct H as (incs & Hincs & H).
    apply bind_ok in H. destruct H as (xl & Hxl & H).
    apply bind_ok in H. destruct H as (an & Han & H). apply step_setup_ok in Han.
    apply bind_ok in H. destruct H as (pf & Hpf & H). cbv zeta in H.
    change (pathfollow solve argsortF (equilibrium c) (stiffness c) (a_Ured an) an
      (DxVec [s_du st; s_dlpf st]) (s_j0 st) (s_jpre st) (pf_config st xl incs) fuel = Ok pf) in Hpf.
    destruct (pathfollow_shape _ _ _ _ _ _ _ _ _ _ Hpf) as (recs & Hres & Hlast).
    rewrite Hres, HR in H. cbn [tl] in H. rewrite write_results in H.
    rewrite app_assoc, copy_U_snoc, rev_app_distr in H. cbn [rev app bind a_lpf set_U0] in H.
    exists (Log an recs (ps_out pf)).
    split; [exact Han|]. split.
    { exists incs, xl, pf. cbn [lg_start lg_recs lg_out]. repeat split; try assumption.
      - apply at_step_in, Hincs.
      - apply at_step_in. destruct (s_xlimit st) as [a|[|a l]]; [exact Hxl|discriminate|exact Hxl]. }
    assert (Hend : lg_end (a_lpf w) (Log an recs (ps_out pf)) = a_lpf (last (map snd recs) w))
      by apply lg_end_last.
    assert (Hfin : ps_an pf = lg_final (Log an recs (ps_out pf))).
    { unfold lg_final. cbn [lg_recs lg_start]. rewrite (last_snd recs [] (a_Ured an ++ [f0])).
      rewrite <- Hlast. reflexivity. }
    rewrite Hend.
    destruct (Nat.ltb (k + 1) nsteps); injection H as <-; cbn [r_an r_R r_lpf_end r_out lg_out lg_results lg_recs].
    - repeat split; try reflexivity.
      + rewrite <- Hfin. reflexivity.
      + eexists. split; [reflexivity|]. reflexivity.
    - repeat split; try reflexivity; [assumption|]. apply removelast_last.
  Qed.

  (** All steps. *)
  Lemma run_steps_ok c st rows nsteps fuel : forall n k s s' done w,
    (k + n = nsteps)%nat -> (0 < n)%nat ->
    foldM (run_step argsortF solve c st rows nsteps fuel) (seq k n) s = Ok s' ->
    r_R s = done ++ [w] ->
    exists logs, length logs = n /\
      steps_from argsortF solve c st rows fuel k (r_an s) (r_lpf_end s) (a_lpf w) logs /\
      r_R s' = done ++ concat (map lg_results logs) /\
      r_lpf_end s' = r_lpf_end s ++ ends (a_lpf w) logs /\
      r_out s' = r_out s ++ concat (map lg_out logs) /\
      (forall d, r_an s' = lg_final (last logs d)).
  Proof.
    induction n as [|n IH]; intros k s s' done w Hk Hn H HR; [lia|].
    cbn [seq foldM] in H. apply bind_ok in H. destruct H as (s1 & H1 & H).
    destruct (run_step_ok _ _ _ _ _ _ _ _ _ _ H1 HR) as (lg & Hst & Hran & Hlp & Hout & Hc).
    destruct (Nat.ltb_spec (k + 1) nsteps) as [L|L].
    - destruct Hc as (Han & w' & HR1 & Hw').
      destruct (IH (S k) s1 s' _ w' ltac:(lia) ltac:(lia) H HR1)
        as (logs & Hlen & Hfrom & HR' & Hlp' & Hout' & Hfin).
      exists (lg :: logs). rewrite Han, Hlp, Hw' in Hfrom. rewrite Hw' in Hlp'.
      cbn [length steps_from map concat ends]. repeat match goal with |- _ /\ _ => split end; try assumption; try lia.
      + rewrite HR', <- app_assoc. reflexivity.
      + rewrite Hlp', Hlp, <- app_assoc. reflexivity.
      + rewrite Hout', Hout, <- app_assoc. reflexivity.
      + intros d. rewrite (Hfin d). destruct logs; [cbn in Hlen; lia|reflexivity].
    - assert (n = 0)%nat as -> by lia. cbn in H. injection H as <-. destruct Hc as [Han HR1].
      exists [lg]. cbn [length steps_from map concat ends last]. rewrite !app_nil_r.
      repeat match goal with |- _ /\ _ => split end; try assumption; auto.
  Qed.

  (** The whole run. *)
  Lemma run_ok m fuel m' out :
    run argsortF solve m fuel = Ok (m', out) ->
    exists u nh eh fh r0 rest u',
      m_built m = Some u /\ m_nodes m = Some nh /\ m_elems m = Some eh /\ m_forces m = Some fh /\
      u_R u = r0 :: rest /\
      m' = Model (m_nodes m) (m_elems m) (m_bounds m) (m_forces m) (m_set m) (Some u') /\
      u_nnodes u' = u_nnodes u /\ u_ndof1 u' = u_ndof1 u /\
      if (s_nsteps (m_set m) <=? 0)%Z
      then u_R u' = r0 :: u_R u /\ u_lpf_end u' = u_lpf_end u /\ out = []
      else exists logs, length logs = Z.to_nat (s_nsteps (m_set m)) /\
        steps_from argsortF solve (ctx_of m u nh eh) (m_set m) (e_rows fh) fuel 0
          (set_lpf f0 (set_Vred (a_Ured (u_an u) ++ [f0]) (u_an u))) (u_lpf_end u)
          (a_lpf (last (u_R u) r0)) logs /\
        u_R u' = r0 :: removelast (u_R u) ++ concat (map lg_results logs) /\
        u_lpf_end u' = u_lpf_end u ++ ends (a_lpf (last (u_R u) r0)) logs /\
        out = concat (map lg_out logs) /\
        (forall d, u_an u' = lg_final (last logs d)).
  Proof.
    intros H. unfold run in H. cbv zeta in H.
    destruct ((1 <? s_log (m_set m))%Z && _); [discriminate|].
    destruct ((1 <? s_log (m_set m))%Z && _ && _); [discriminate|].
    destruct (m_built m) as [u|] eqn:Eu; [|discriminate].
    destruct (m_nodes m) as [nh|] eqn:En; [|discriminate].
    destruct (m_elems m) as [eh|] eqn:Ee; [|discriminate].
    destruct (m_forces m) as [fh|] eqn:Ef; [|discriminate].
    destruct (u_R u) as [|r0 rest] eqn:ER; [discriminate|].
    apply bind_ok in H. destruct H as (s & Hs & H). injection H as <- <-.
    exists u, nh, eh, fh, r0, rest. eexists.
    do 4 (split; [reflexivity|]). split; [exact ER|]. do 3 (split; [reflexivity|]).
    cbn [u_R u_lpf_end u_an]. rewrite ER.
    destruct (Z.leb_spec (s_nsteps (m_set m)) 0) as [L|L].
    - replace (Z.to_nat (s_nsteps (m_set m))) with 0%nat in Hs by lia. cbn in Hs. injection Hs as <-.
      cbn. auto.
    - assert (Hw : exists done w, r0 :: r0 :: rest = done ++ [w] /\
        done = r0 :: removelast (r0 :: rest) /\ w = last (r0 :: rest) r0).
      { exists (r0 :: removelast (r0 :: rest)), (last (r0 :: rest) r0). split; [|auto].
        cbn [app]. f_equal. apply app_removelast_last. discriminate. }
      destruct Hw as (done & w & HR & Hd & Hw).
      destruct (run_steps_ok _ _ _ _ _ (Z.to_nat (s_nsteps (m_set m))) 0%nat _ _ done w eq_refl ltac:(lia) Hs HR)
        as (logs & Hlen & Hfrom & HR' & Hlp & Hout & Hfin).
      exists logs. cbn [r_an r_lpf_end r_out] in *. subst done w.
      repeat match goal with |- _ /\ _ => split end; assumption.
  Qed.
End RunFacts.
