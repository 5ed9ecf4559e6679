(** * The text of a run that raised *)
From Coq Require Import List ZArith Bool Arith Lia.
Import ListNotations.
From Verif Require Import Num Vec Handlers Material Analysis Truss Equil Solver Run Text SpecSolver SpecRun SpecText ListFacts RunFacts RunProps TextFacts TextProps.

Section Cut.
  Context {F : Type} `{NF : Num F}.
  Variable argsortF : list F -> list nat.
  Variable solve : list (list F) -> list F -> list F.
  Notation L := (line F).

  Lemma tbind_ext {A B} (m : told L A) (k k' : A -> told L B) : (forall a, k a = k' a) -> tbind m k = tbind m k'.
  Proof. intros H. unfold tbind. destruct (snd m); auto. now rewrite H. Qed.

  (** The number of increments plays no part within an increment. *)
  Definition with_incs (n : Z) (cfg : pfcfg F) : pfcfg F :=
    PfCfg (cf_jfixed cfg) (cf_xlimit cfg) n (cf_nfev cfg) (cf_cycl cfg) (cf_ftol cfg) (cf_xtol cfg) (cf_stepcontrol cfg)
          (cf_maxfac cfg) (cf_minfac cfg) (cf_reduce cfg) (cf_increase cfg) (cf_dxtol cfg).
  Lemma recycle_incs n v g dg cfg x0 dxmax0 pre fuel : forall s,
    recycle_t argsortF solve v g dg (with_incs n cfg) x0 dxmax0 pre fuel s = recycle_t argsortF solve v g dg cfg x0 dxmax0 pre fuel s.
  Proof.
    induction fuel as [|fuel IH]; intros s; [reflexivity|]. cbn [recycle_t].
    apply tbind_ext. intros _. cbv zeta. apply tbind_ext. intros xj. apply tbind_ext. intros dj. apply tbind_ext. intros xs.
    apply tbind_ext. intros [an1 o]. apply tbind_ext. intros Dx. apply tbind_ext. intros [i1 v1].
    destruct (Nat.ltb _ 2); [reflexivity|].
    destruct (ranked argsortF Dx (rc_dxmax s) 1) as [i2 v2]. destruct (if Nat.ltb 2 _ then _ else _) as [i3 v3].
    apply tbind_ext. intros _. apply tbind_ext. intros j. apply tbind_ext. intros q. apply tbind_ext. intros valid.
    apply tbind_ext. intros [[[dx' z'] b'] ch]. cbn [with_incs cf_cycl].
    destruct (valid && _); [reflexivity|]. destruct (z' + 1 =? _)%Z; [reflexivity|]. destruct (_ && negb (no_success o) && _); [reflexivity|].
    apply tbind_ext. intros _. apply IH.
  Qed.
  Lemma increment_incs n v g dg cfg dxmax0 fuel i s :
    increment_t argsortF solve v g dg (with_incs n cfg) dxmax0 fuel i s = increment_t argsortF solve v g dg cfg dxmax0 fuel i s.
  Proof.
    unfold increment_t. apply tbind_ext. intros _. cbv zeta. f_equal. cbn [with_incs cf_jfixed].
    destruct (_ && _).
    - apply tbind_ext. intros p. destruct (pr_success p); [reflexivity|]. now rewrite recycle_incs.
    - now rewrite recycle_incs.
  Qed.
  Lemma increments_incs n v g dg cfg dxmax0 fuel k : forall i s,
    increments_t argsortF solve v g dg (with_incs n cfg) dxmax0 fuel k i s = increments_t argsortF solve v g dg cfg dxmax0 fuel k i s.
  Proof.
    induction k as [|k IH]; intros i s; [reflexivity|]. cbn [increments_t]. rewrite increment_incs.
    apply tbind_ext. intros [s1 stop]. destruct stop; [reflexivity|]. apply tbind_ext. intros lim. destruct lim; [reflexivity|apply IH].
  Qed.

  Lemma fst_say {A} (h : list L) (k : unit -> told L A) : fst (tbind (say h) k) = h ++ fst (k tt).
  Proof. reflexivity. Qed.
  (** What one increment prints, whatever its outcome. *)
  Lemma increment_any v g dg cfg dxmax0 fuel i s : (0 < v)%Z ->
    increments_in (fst (increment_t argsortF solve v g dg cfg dxmax0 fuel i s)) = [i] /\
    (length (finals_in (fst (increment_t argsortF solve v g dg cfg dxmax0 fuel i s))) <= 1)%nat /\
    steps_in (fst (increment_t argsortF solve v g dg cfg dxmax0 fuel i s)) = [].
  Proof.
    intros Hv. unfold increment_t.
    set (h := above v 0 [LBlank; LIncrement i] ++ above v 1 [LTableHead; LTableRule]).
    assert (Hh : increments_in h = [i] /\ finals_in h = [] /\ steps_in h = []).
    { unfold h. rewrite above_on by lia. unfold above. destruct (1 <? v)%Z; auto. }
    destruct Hh as (H1 & H2 & H3). set (body := if ps_jpre s && _ then _ else _).
    assert (Hb : all inside body).
    { unfold body. destruct (_ && _).
      - apply all_bind; [eapply all_impl; [|apply predict_lines]; intros l [Hl _]; now apply plain_inside|].
        intros p. destruct (pr_success p); [apply all_quiet|]. apply all_bind; [apply recycle_lines|]. intros [[r x] st]. apply all_quiet.
      - apply all_bind; [apply recycle_lines|]. intros [[r x] st]. apply all_quiet. }
    clearbody body. unfold all in Hb. destruct (inside_proj _ Hb) as (B1 & B2 & B3 & B4).
    rewrite fst_say. rewrite increments_app, finals_app, steps_app, H1, H2, H3. clear H1 H2 H3. clearbody h.
    cbn [app]. destruct body as [tb [[s1 stop]| |]]; cbn [fst snd tbind say quiet] in *.
    - rewrite !increments_app, !finals_app, !steps_app, B1, B2, B4, above_on by lia. cbn. auto.
    - rewrite B1, B2, B4. auto.
    - rewrite B1, B2, B4. auto.
  Qed.

  (** The first [q] increments, if another one has been begun. *)
  Lemma increments_cut v g dg cfg dxmax0 fuel : (0 < v)%Z -> forall q k i s,
    (q < length (increments_in (fst (increments_t argsortF solve v g dg cfg dxmax0 fuel k i s))))%nat ->
    exists T' s', increments_t argsortF solve v g dg cfg dxmax0 fuel q i s = (T', Ok s') /\
      finals_in T' = firstn q (finals_in (fst (increments_t argsortF solve v g dg cfg dxmax0 fuel k i s))) /\
      increments_in T' = firstn q (increments_in (fst (increments_t argsortF solve v g dg cfg dxmax0 fuel k i s))) /\
      length (finals_in T') = q /\
      steps_in T' = [].
  Proof.
    intros Hv. induction q as [|q IH]; intros k i s Hq; [exists [], s; auto|].
    destruct k as [|k]; [cbn in Hq; lia|]. cbn [increments_t] in *.
    destruct (increment_any v g dg cfg dxmax0 fuel i s Hv) as (A1 & A2 & A3).
    destruct (increment_t argsortF solve v g dg cfg dxmax0 fuel i s) as [t1 r1] eqn:E. cbn [fst] in *.
    destruct r1 as [[s1 stop]|e|]; [|cbn [tbind fst snd] in Hq; rewrite A1 in Hq; cbn in Hq; lia..].
    unfold tbind in *. cbn [fst snd] in *. rewrite increments_app, A1 in Hq. rewrite finals_app, increments_app, A1.
    destruct stop; [cbn in Hq; lia|]. destruct (beyond_limit cfg (ps_x s1)) as [lim| |]; cbn [quiet fst snd app] in *; [|cbn in Hq; lia..].
    destruct lim; [cbn in Hq; lia|]. cbn [length] in Hq.
    destruct (IH k (i + 1)%Z s1 ltac:(lia)) as (T' & s' & I1 & I2 & I3 & I4 & I5). rewrite I1. cbn [fst snd].
    apply increment_text in E as (an & out & _ & _ & _ & _ & _ & _ & _ & R8 & _).
    unfold above_F in R8. destruct (Z.ltb_spec 0 v); [|lia]. exists (t1 ++ T'), s'. split; [reflexivity|].
    rewrite finals_app, increments_app, steps_app, A1, R8, A3, I2, I3, I5. cbn [app firstn length]. rewrite I2 in I4. auto.
  Qed.

  Lemma pathfollow_cut v g dg Ured an d j jpre cfg fuel q : (0 < v)%Z -> (0 < q)%nat ->
    (q < length (increments_in (fst (pathfollow_t argsortF solve v g dg Ured an d j jpre cfg fuel))))%nat ->
    exists T' s', pathfollow_t argsortF solve v g dg Ured an d j jpre (with_incs (Z.of_nat q) cfg) fuel = (T', Ok s') /\
      finals_in T' = firstn q (finals_in (fst (pathfollow_t argsortF solve v g dg Ured an d j jpre cfg fuel))) /\
      increments_in T' = firstn q (increments_in (fst (pathfollow_t argsortF solve v g dg Ured an d j jpre cfg fuel))) /\
      length (finals_in T') = q /\ steps_in T' = [].
  Proof.
    intros Hv Hq0 Hq. unfold pathfollow_t in *. cbv zeta in *. cbn [with_incs cf_jfixed cf_incs] in *. rewrite Nat2Z.id.
    rewrite increments_incs.
    destruct (negb (cf_jfixed cfg)).
    - destruct (increments_cut _ _ _ _ _ _ Hv _ _ _ _ Hq) as (T' & s' & H). exists T', s'. exact H.
    - destruct j as [j|].
      + rewrite increments_incs. destruct (increments_cut _ _ _ _ _ _ Hv _ _ _ _ Hq) as (T' & s' & H). exists T', s'. exact H.
      + destruct (_ <=? 0)%Z; [cbn in Hq; lia|]. exfalso. cbn [fst] in Hq.
        rewrite above_on in Hq by lia. unfold above in Hq. destruct (1 <? v)%Z; cbn in Hq; lia.
  Qed.

  Lemma cut_len (p : perstep Z) K : length (match p with Same n => repeat n K | Per l => firstn K (l ++ repeat 0%Z K) end) = K.
  Proof. destruct p as [n|l]; [apply repeat_length|]. rewrite firstn_length, app_length, repeat_length. lia. Qed.
  Lemma cut_at (p : perstep Z) K q k : (k < K)%nat -> (exists n, at_step p k = Ok n) -> at_step (cut_incs p K q) k = at_step p k.
  Proof.
    intros Hk [n Hn]. unfold at_step at 1, cut_incs. rewrite nth_error_app1 by (rewrite cut_len; exact Hk). rewrite Hn. destruct p as [m|l]; cbn [at_step] in Hn.
    - injection Hn as ->. rewrite ListFacts.nth_error_repeat. destruct (Nat.ltb_spec k K); [reflexivity|lia].
    - destruct (nth_error l k) as [m|] eqn:E; [|discriminate]. injection Hn as ->. pose proof E as E'. rewrite <- (nth_error_app1 l (repeat 0%Z K)) in E' by (apply nth_error_Some; congruence).
      rewrite <- (firstn_skipn K (l ++ repeat 0%Z K)), nth_error_app1 in E' by (rewrite firstn_length, app_length, repeat_length; lia). rewrite E'. reflexivity.
  Qed.
  Lemma cut_last (p : perstep Z) K q : at_step (cut_incs p K q) K = Ok q.
  Proof. unfold at_step, cut_incs. rewrite nth_error_app2 by (rewrite cut_len; lia). rewrite cut_len, Nat.sub_diag. reflexivity. Qed.

  (** What a step prints, whatever its outcome. *)
  Lemma pathfollow_steps v g dg Ured an d j jpre cfg fuel : steps_in (fst (pathfollow_t argsortF solve v g dg Ured an d j jpre cfg fuel)) = [].
  Proof.
    assert (HH : forall k i s dxm, steps_in (fst (increments_t argsortF solve v g dg cfg dxm fuel k i s)) = []).
    { induction k as [|k IH]; intros i s dxm; [reflexivity|]. cbn [increments_t].
      assert (A : steps_in (fst (increment_t argsortF solve v g dg cfg dxm fuel i s)) = []).
      { unfold increment_t. rewrite fst_say, steps_app. replace (steps_in (above v 0 [LBlank; LIncrement i] ++ above v 1 [LTableHead; LTableRule])) with (@nil Z)
          by (unfold above; destruct (0 <? v)%Z, (1 <? v)%Z; reflexivity). cbv zeta. set (body := if ps_jpre s && _ then _ else _).
        assert (Hb : all inside body).
        { unfold body. destruct (_ && _).
          - apply all_bind; [eapply all_impl; [|apply predict_lines]; intros l [Hl _]; now apply plain_inside|].
            intros p. destruct (pr_success p); [apply all_quiet|]. apply all_bind; [apply recycle_lines|]. intros [[r x] st]. apply all_quiet.
          - apply all_bind; [apply recycle_lines|]. intros [[r x] st]. apply all_quiet. }
        clearbody body. unfold all in Hb. destruct (inside_proj _ Hb) as (B1 & B2 & B3 & B4).
        destruct body as [tb [[s1 stop]| |]]; cbn [fst snd tbind say quiet app] in *; rewrite ?steps_app, B4; [|reflexivity..].
        unfold above. destruct (0 <? v)%Z; reflexivity. }
      destruct (increment_t argsortF solve v g dg cfg dxm fuel i s) as [t1 [[s1 stop]| |]]; cbn [fst snd tbind] in *; [|exact A..].
      rewrite steps_app, A. destruct stop; [reflexivity|]. destruct (beyond_limit cfg (ps_x s1)) as [[|]| |]; cbn [fst snd tbind quiet say app]; try reflexivity. apply IH. }
    unfold pathfollow_t. cbv zeta. destruct (negb _); [apply HH|]. destruct j as [j|]; [apply HH|]. destruct (_ <=? 0)%Z; [reflexivity|].
    cbn [fst]. unfold above. destruct (0 <? v)%Z, (1 <? v)%Z; reflexivity.
  Qed.


  (** The part of a step after its path. *)
  Definition step_tail (st : settings F) (nsteps : nat) (s : runst F) (step : nat) (pf : pfst F) : told L (runst F) :=
    let new := map snd (tl (ps_res pf)) in
    _ <~ say (above (s_log st) 1 ([LPagebreak; LSpace; LCreate (1 + Z.of_nat step)]
                            ++ writes 1 (length new) (map a_lpf new))) ;;
    let R1 := fold_left write_result new (r_R s) in
    let R2 := copy_U_last R1 in
    lpf <~ quiet (match rev R2 with [] => Err IndexError | a :: _ => Ok (a_lpf a) end) ;;
    let lpf_end := r_lpf_end s ++ [lpf] in
    let an' := ps_an pf in
    let s' := if Nat.ltb (step + 1) nsteps
              then Rs (set_lpf f0 (set_Vred (zero_last (a_Vred an')) an')) R2 lpf_end
                      (r_out s ++ ps_out pf)
              else Rs an' (removelast R2) lpf_end (r_out s ++ ps_out pf) in
    _ <~ say (above (s_log st) 0 [LEndStep (1 + Z.of_nat step)]) ;;
    quiet (Ok s').
  Lemma tail_lines st nsteps s step pf : all (fun l => calm l /\ match l with LStep _ => False | _ => True end) (step_tail st nsteps s step pf).
  Proof.
    unfold step_tail. cbv zeta. apply all_bind.
    - apply all_above. cbn [app]. do 3 (constructor; [split; exact I|]). generalize 1%nat as i.
      generalize (map a_lpf (map snd (tl (ps_res pf)))) as ls. intros ls. generalize (length (map snd (tl (ps_res pf)))) as n.
      intros n. induction ls as [|l ls IH]; intros i; constructor; [split; exact I|apply IH].
    - intros _. apply all_bind; [apply all_quiet|]. intros lp. apply all_bind; [apply all_above; repeat constructor|]. intros; apply all_quiet.
  Qed.
  Lemma tail_facts st nsteps s step pf : increments_in (fst (step_tail st nsteps s step pf)) = [] /\
    finals_in (fst (step_tail st nsteps s step pf)) = [] /\ steps_in (fst (step_tail st nsteps s step pf)) = [].
  Proof.
    pose proof (tail_lines st nsteps s step pf) as H. unfold all in H. generalize dependent (fst (step_tail st nsteps s step pf)). intros t H.
    induction H as [|l t [H1 H2] _ (E1 & E2 & E3)]; [auto|]. unfold increments_in, finals_in, steps_in in *. cbn [flat_map]. rewrite E1, E2, E3.
    destruct l; cbn in *; auto; contradiction.
  Qed.
  Lemma tail_ok st nsteps s step pf done w : r_R s = done ++ [w] -> exists t s', step_tail st nsteps s step pf = (t, Ok s').
  Proof.
    intros HR. unfold step_tail. cbv zeta. rewrite HR, write_results, app_assoc, copy_U_snoc, rev_app_distr. cbn [rev app].
    unfold tbind. cbn [say snd fst quiet]. eauto.
  Qed.
  Lemma run_step_tail c st rows nsteps fuel s step : run_step_t argsortF solve c st rows nsteps fuel s step =
    (incs <~ quiet (at_step (s_incs st) step) ;;
    xlimit <~ quiet (match s_xlimit st with
               | Per [] => Err IndexError
               | p => at_step p step
               end) ;;
    _ <~ say (above (s_log st) 0 [LStep (1 + Z.of_nat step)]
              ++ above (s_log st) 1 [LHelp 1; LHelp 2; LHelp 3; LHelp 4; LHelp 5; LFormula]) ;;
    fconst <~ quiet (const_forces rows (r_lpf_end s) step) ;;
    _ <~ say (if Nat.eqb step 0 then [] else [LConstHead; LConst fconst; LStartHead; LStart (a_Vred (r_an s))]) ;;
    f0red <~ quiet (gather (concat (block step rows)) (a_DOF1 (r_an s))) ;;
    pf <~ pathfollow_t argsortF solve (s_log st) (equilibrium c) (stiffness c)
            (a_Ured (r_an s)) (set_step (1 + Z.of_nat step)%Z
                (set_f0red f0red (set_forces (block step rows) (set_fconst fconst (r_an s))))) (DxVec [s_du st; s_dlpf st]) (s_j0 st) (s_jpre st)
            (pf_config st xlimit incs) fuel ;;
    step_tail st nsteps s step pf).
  Proof. reflexivity. Qed.

  Lemma run_step_shape c st rows nsteps fuel s k : (0 < s_log st)%Z ->
    fst (run_step_t argsortF solve c st rows nsteps fuel s k) = [] \/
    exists rest, fst (run_step_t argsortF solve c st rows nsteps fuel s k) = LStep (1 + Z.of_nat k) :: rest /\ steps_in rest = [].
  Proof.
    intros Hv. rewrite run_step_tail. destruct (at_step (s_incs st) k) as [incs| |]; cbn [tbind quiet fst snd app]; [|now left..].
    set (xl := match s_xlimit st with Same a => _ | Per [] => _ | _ => _ end).
    destruct xl as [xlim| |]; cbn [tbind quiet fst snd app]; [|now left..]. right.
    rewrite (above_on _ 0) by lia. cbn [app tbind say fst snd]. eexists. split; [reflexivity|].
    assert (A : steps_in (above (s_log st) 1 [@LHelp F 1; LHelp 2; LHelp 3; LHelp 4; LHelp 5; LFormula]) = []).
    { unfold above. destruct (_ <? _)%Z; reflexivity. }
    rewrite steps_app, A. cbn [app]. destruct (const_forces _ _ _) as [fc| |]; cbn [tbind quiet fst snd app]; [|reflexivity..].
    cbn [say fst snd]. rewrite steps_app. replace (steps_in (if Nat.eqb k 0 then [] else [LConstHead; LConst fc; LStartHead; LStart (a_Vred (r_an s))])) with (@nil Z)
      by (destruct (Nat.eqb k 0); reflexivity). cbn [app].
    destruct (gather _ _) as [f0r| |]; cbn [tbind quiet fst snd app]; [|reflexivity..].
    match goal with |- context [pathfollow_t ?a ?b ?v ?g ?dg ?U ?an ?d ?j ?jp ?cfg ?fu] =>
      pose proof (pathfollow_steps v g dg U an d j jp cfg fu) as Hs; destruct (pathfollow_t a b v g dg U an d j jp cfg fu) as [tp [pf| |]] end;
    cbn [fst snd tbind] in *; [|exact Hs..].
    rewrite steps_app, Hs. apply tail_facts.
  Qed.

  (** The step in which the run ended, cut after [q] increments. *)
  Lemma run_step_cut c st rows nsteps fuel s K q rest done w : (0 < s_log st)%Z -> (0 < q)%nat ->
    fst (run_step_t argsortF solve c st rows nsteps fuel s K) = LStep (1 + Z.of_nat K) :: rest ->
    (q < length (increments_in rest))%nat -> r_R s = done ++ [w] ->
    exists T' s', run_step_t argsortF solve c (cut K (Z.of_nat q) st) rows (S K) fuel s K = (LStep (1 + Z.of_nat K) :: T', Ok s') /\
      finals_in T' = firstn q (finals_in rest) /\ increments_in T' = firstn q (increments_in rest) /\
      length (finals_in T') = q.
  Proof.
    intros Hv Hq0 HT Hq HR. rewrite run_step_tail in *. cbn [cut s_incs s_xlimit s_log s_du s_dlpf s_j0 s_jpre] in *. rewrite cut_last.
    destruct (at_step (s_incs st) K) as [incs| |]; cbn [tbind quiet fst snd app] in *; [|discriminate..].
    set (xl := match s_xlimit st with Same a => _ | Per [] => _ | _ => _ end) in *.
    destruct xl as [xlim| |]; cbn [tbind quiet fst snd app] in *; [|discriminate..].
    rewrite (above_on (s_log st) 0) in * by lia. cbn [app tbind say fst snd] in *. injection HT as <-.
    assert (A : forall u, increments_in (above (s_log st) 1 [@LHelp F 1; LHelp 2; LHelp 3; LHelp 4; LHelp 5; LFormula] ++ u) = increments_in u
       /\ finals_in (above (s_log st) 1 [@LHelp F 1; LHelp 2; LHelp 3; LHelp 4; LHelp 5; LFormula] ++ u) = finals_in u).
    { intros u. unfold above. destruct (_ <? _)%Z; auto. }
    rewrite (proj1 (A _)) in Hq. rewrite (proj1 (A _)), (proj2 (A _)).
    destruct (const_forces _ _ _) as [fc| |]; cbn [tbind quiet fst snd app] in *; [|cbn in Hq; lia..].
    assert (B : forall u, increments_in ((if Nat.eqb K 0 then [] else [LConstHead; LConst fc; LStartHead; LStart (a_Vred (r_an s))]) ++ u) = increments_in u
       /\ finals_in ((if Nat.eqb K 0 then [] else [LConstHead; LConst fc; LStartHead; LStart (a_Vred (r_an s))]) ++ u) = finals_in u).
    { intros u. destruct (Nat.eqb K 0); auto. }
    cbn [say fst snd] in Hq |- *. rewrite (proj1 (B _)) in Hq.
    rewrite (proj1 (B _)), (proj2 (B _)).
    destruct (gather _ _) as [f0r| |]; cbn [tbind quiet fst snd app] in *; [|cbn in Hq; lia..].
    set (an := set_step _ _) in *.
    change (pf_config (cut K (Z.of_nat q) st) xlim (Z.of_nat q)) with (with_incs (Z.of_nat q) (pf_config st xlim incs)).
    pose proof (pathfollow_cut (s_log st) (equilibrium c) (stiffness c) (a_Ured (r_an s)) an (DxVec [s_du st; s_dlpf st]) (s_j0 st) (s_jpre st) (pf_config st xlim incs) fuel q Hv Hq0) as Hc.
    destruct (pathfollow_t argsortF solve (s_log st) (equilibrium c) (stiffness c) (a_Ured (r_an s)) an (DxVec [s_du st; s_dlpf st]) (s_j0 st) (s_jpre st) (pf_config st xlim incs) fuel) as [tp rp] eqn:Ep.
    cbn [fst] in Hc.
    assert (Hin : increments_in (fst (tbind (tp, rp) (step_tail st nsteps s K))) = increments_in tp /\ finals_in (fst (tbind (tp, rp) (step_tail st nsteps s K))) = finals_in tp).
    { destruct rp as [pf| |]; cbn [tbind fst snd]; [|auto..]. destruct (tail_facts st nsteps s K pf) as (F1 & F2 & _).
      rewrite increments_app, finals_app, F1, F2, !app_nil_r. auto. }
    change (fun pf => step_tail st nsteps s K pf) with (step_tail st nsteps s K) in *.
    rewrite (proj1 Hin) in Hq. rewrite (proj1 Hin), (proj2 Hin). destruct (Hc Hq) as (T' & pf & H1 & H2 & H3 & H4 & H5). rewrite H1.
    destruct (tail_ok (cut K (Z.of_nat q) st) (S K) s K pf done w HR) as (t & s' & Ht).
    destruct (tail_facts (cut K (Z.of_nat q) st) (S K) s K pf) as (F1 & F2 & _).
    unfold tbind at 1 2. cbn [say snd fst]. unfold tbind. cbn [fst snd]. rewrite Ht in *. cbn [fst snd] in *.
    eexists _, s'. split; [reflexivity|]. rewrite (proj1 (A _)), (proj2 (A _)), (proj1 (B _)), (proj2 (B _)).
    rewrite finals_app, increments_app, F1, F2, !app_nil_r. auto.
  Qed.

  Lemma run_step_early c st rows nsteps fuel s k K q t s' : (k < K)%nat -> (k + 1 < nsteps)%nat ->
    run_step_t argsortF solve c st rows nsteps fuel s k = (t, Ok s') ->
    run_step_t argsortF solve c (cut K q st) rows (S K) fuel s k = (t, Ok s').
  Proof.
    intros Hk Hn H. rewrite <- H. rewrite !run_step_tail. cbn [cut s_incs s_xlimit s_log s_du s_dlpf s_j0 s_jpre].
    rewrite cut_at; [|exact Hk|].
    2:{ rewrite run_step_tail in H. destruct (at_step (s_incs st) k) as [n| |]; [eauto|discriminate..]. }
    apply tbind_ext. intros incs. apply tbind_ext. intros xl. apply tbind_ext. intros _. apply tbind_ext. intros fc.
    apply tbind_ext. intros _. apply tbind_ext. intros f0r. apply tbind_ext. intros pf. unfold step_tail. cbv zeta. cbn [cut s_log].
    apply tbind_ext. intros _. apply tbind_ext. intros lp.
    destruct (Nat.ltb_spec (k + 1) (S K)); [|lia]. destruct (Nat.ltb_spec (k + 1) nsteps); [|lia]. reflexivity.
  Qed.

  Lemma cons_step a b (x y : list L) : LStep a :: x = LStep b :: y -> a = b /\ x = y.
  Proof. intros H. injection H as -> ->. auto. Qed.
  Lemma cons_inv (a b : L) (x y : list L) : a :: x = b :: y -> a = b /\ x = y.
  Proof. intros H. injection H as -> ->. auto. Qed.
  (** Nothing, or text that begins with a step line. *)
  Definition begins (t : list L) : Prop := t = [] \/ exists k t', t = LStep k :: t'.
  Lemma steps_cons_nil x (t : list L) : steps_in (x :: t) = [] -> steps_in t = [] /\ forall k, x <> LStep k.
  Proof. destruct x; cbn; intros H; try discriminate; split; auto; discriminate. Qed.
  Lemma same_step (a b c d : list L) : a ++ b = c ++ d -> steps_in a = [] -> steps_in c = [] -> begins b -> begins d -> a = c /\ b = d.
  Proof.
    revert c. induction a as [|x a IH]; intros [|y c] H Ha Hc Hb Hd; cbn [app] in H.
    - auto.
    - destruct (steps_cons_nil _ _ Hc) as [_ Hy]. subst b. destruct Hb as [Hb|(k & t' & Hb)]; [discriminate|]. injection Hb as Hb _. now apply Hy in Hb.
    - destruct (steps_cons_nil _ _ Ha) as [_ Hx]. subst d. destruct Hd as [Hd|(k & t' & Hd)]; [discriminate|]. injection Hd as Hd _. now apply Hx in Hd.
    - injection H as -> H. destruct (steps_cons_nil _ _ Ha) as [Ha' _], (steps_cons_nil _ _ Hc) as [Hc' _]. destruct (IH _ H Ha' Hc' Hb Hd). subst. auto.
  Qed.
  Lemma later_step (T1 : list L) K T2 t1 T' : T1 ++ LStep K :: T2 = t1 ++ T' -> steps_in t1 = [] ->
    exists T1', T1 = t1 ++ T1' /\ T' = T1' ++ LStep K :: T2.
  Proof.
    revert t1. induction T1 as [|x T1 IH]; intros t1 H Ht; cbn [app] in H.
    - destruct t1 as [|y t1]; [exists []; auto|]. injection H as <- ->. destruct (steps_cons_nil _ _ Ht) as [_ Hy]. now specialize (Hy K).
    - destruct t1 as [|y t1]; [exists (x :: T1); auto|]. injection H as <- H. destruct (steps_cons_nil _ _ Ht) as [Ht' _].
      destruct (IH t1 H Ht') as (T1' & -> & H'). exists T1'. auto.
  Qed.

  Lemma fold_begins c st rows nsteps fuel : (0 < s_log st)%Z -> forall n k s done w, (k + n = nsteps)%nat -> r_R s = done ++ [w] ->
    begins (fst (foldT (run_step_t argsortF solve c st rows nsteps fuel) (seq k n) s)).
  Proof.
    intros Hv [|n] k s done w Hk HR; [now left|]. cbn [seq foldT].
    destruct (run_step_shape c st rows nsteps fuel s k Hv) as [E|(rest & E & Er)];
      destruct (run_step_t argsortF solve c st rows nsteps fuel s k) as [t3 [s3| |]] eqn:E3; cbn [fst tbind snd] in *; subst t3;
      try (now left); try (right; eexists _, _; reflexivity).
    apply run_step_text with (done := done) (w := w) in E3 as (lg3 & _ & _ & _ & _ & _ & (_ & _ & H3 & _)); [|exact HR].
    unfold above_Z in H3. destruct (Z.ltb_spec 0 (s_log st)); [discriminate|lia].
  Qed.

  Lemma run_steps_cut c st rows nsteps fuel q K : (0 < s_log st)%Z -> (0 < q)%nat -> forall n k s T1 T2 T3 done w,
    (k + n = nsteps)%nat ->
    fst (foldT (run_step_t argsortF solve c st rows nsteps fuel) (seq k n) s) = T1 ++ LStep (1 + Z.of_nat K) :: T2 ++ T3 ->
    steps_in T2 = [] -> begins T3 -> (q < length (increments_in T2))%nat -> r_R s = done ++ [w] ->
    (k <= K)%nat /\ exists T' s',
      foldT (run_step_t argsortF solve c (cut K (Z.of_nat q) st) rows (S K) fuel) (seq k (S K - k)) s = (T', Ok s') /\
      finals_in T' = finals_in T1 ++ firstn q (finals_in T2) /\
      increments_in T' = increments_in T1 ++ firstn q (increments_in T2) /\
      length (firstn q (finals_in T2)) = q.
  Proof.
    intros Hv Hq0. induction n as [|n IH]; intros k s T1 T2 T3 done w Hk HT Hs HT3 Hq HR; [cbn in HT; destruct T1; discriminate|].
    assert (HU : exists rest T', fst (run_step_t argsortF solve c st rows nsteps fuel s k) = LStep (1 + Z.of_nat k) :: rest /\ steps_in rest = [] /\
      fst (foldT (run_step_t argsortF solve c st rows nsteps fuel) (seq k (S n)) s) = LStep (1 + Z.of_nat k) :: rest ++ T' /\ begins T' /\
      (T' = [] \/ exists s1 done' w', run_step_t argsortF solve c st rows nsteps fuel s k = (LStep (1 + Z.of_nat k) :: rest, Ok s1) /\
         (k + 1 < nsteps)%nat /\ r_R s1 = done' ++ [w'] /\ T' = fst (foldT (run_step_t argsortF solve c st rows nsteps fuel) (seq (S k) n) s1))).
    { cbn [seq foldT] in *. destruct (run_step_shape c st rows nsteps fuel s k Hv) as [E|(rest & E & Er)].
      { destruct (run_step_t argsortF solve c st rows nsteps fuel s k) as [t0 [s1| |]] eqn:E0; cbn [fst tbind snd] in *; subst t0;
          [|destruct T1; discriminate..].
        apply run_step_text with (done := done) (w := w) in E0 as (lg & _ & _ & _ & _ & _ & (_ & _ & H3 & _)); [|exact HR].
        unfold above_Z in H3. destruct (Z.ltb_spec 0 (s_log st)); [discriminate|lia]. }
      exists rest. destruct (run_step_t argsortF solve c st rows nsteps fuel s k) as [t0 r0] eqn:E0. cbn [fst] in E. subst t0. cbn [fst].
      destruct r0 as [s1| |]; [|exists []; cbn [tbind fst snd]; rewrite app_nil_r; (split; [reflexivity|]); (split; [exact Er|]); (split; [reflexivity|]); (split; [now left|]); now left..].
      destruct n as [|n].
      { exists []. cbn [seq foldT tbind quiet fst snd]. rewrite !app_nil_r. split; [reflexivity|]. split; [exact Er|]. split; [reflexivity|]. split; now left. }
      pose proof E0 as E1. apply run_step_text with (done := done) (w := w) in E1 as (lg & _ & _ & _ & _ & Hc & _); [|exact HR].
      destruct (Nat.ltb_spec (k + 1) nsteps); [|lia]. destruct Hc as (_ & w' & HR' & _).
      eexists. unfold tbind. cbn [fst snd]. split; [reflexivity|]. split; [exact Er|]. split; [reflexivity|].
      split; [eapply fold_begins; [exact Hv|lia|exact HR']|]. right. exists s1, (done ++ lg_results lg), w'. auto. }
    destruct HU as (rest & T' & E & Er & HF & HB & HO). rewrite HF in HT.
    destruct T1 as [|x T1]; cbn [app] in HT.
    - apply cons_step in HT as [HK HT]. destruct (same_step _ _ _ _ HT Er Hs HB HT3) as [-> _]. assert (K = k) as -> by lia. clear HK.
      destruct (run_step_cut c st rows nsteps fuel s k q T2 done w Hv Hq0 E Hq HR) as (T4 & s' & C1 & C2 & C3 & C4). split; [lia|].
      exists (LStep (1 + Z.of_nat k) :: T4), s'. replace (S k - k)%nat with 1%nat by lia. cbn [seq foldT].
      rewrite C1. cbn [tbind fst snd quiet]. rewrite app_nil_r. split; [reflexivity|]. cbn [finals_in increments_in flat_map app].
      rewrite <- C2. repeat split; assumption.
    - apply cons_inv in HT as [<- HT]. destruct (later_step _ _ _ _ _ (eq_sym HT) Er) as (T1' & -> & HT').
      destruct HO as [->|(s1 & done' & w' & E0 & Hlt & HR' & ->)]; [destruct T1'; discriminate|].
      destruct (IH (S k) s1 T1' T2 T3 _ _ ltac:(lia) HT' Hs HT3 Hq HR') as (HkK & T4 & s' & I1 & I2 & I3 & I4). split; [lia|].
      exists ((LStep (1 + Z.of_nat k) :: rest) ++ T4), s'. replace (S K - k)%nat with (S (S K - S k)) by lia. cbn [seq foldT].
      rewrite (run_step_early c st rows nsteps fuel s k K (Z.of_nat q) _ _ ltac:(lia) ltac:(lia) E0). unfold tbind. cbn [fst snd].
      rewrite I1. cbn [fst snd]. split; [reflexivity|].
      change (LStep (1 + Z.of_nat k) :: rest ++ T1') with ((LStep (1 + Z.of_nat k) :: rest) ++ T1').
      rewrite !finals_app, !increments_app, I2, I3, !app_assoc. auto.
  Qed.

  (** The whole run. *)
  Lemma run_cut m fuel q K T1 T2 T3 : (0 < s_log (m_set m))%Z -> (0 < q)%nat ->
    fst (run_t argsortF solve m fuel) = T1 ++ LStep (1 + Z.of_nat K) :: T2 ++ T3 ->
    steps_in T2 = [] -> begins T3 -> (q < length (increments_in T2))%nat ->
    exists T' m' out,
      run_t argsortF solve (with_settings (cut K (Z.of_nat q) (m_set m)) m) fuel = (T', Ok (m', out)) /\
      finals_in T' = finals_in T1 ++ firstn q (finals_in T2) /\
      increments_in T' = increments_in T1 ++ firstn q (increments_in T2) /\ length (firstn q (finals_in T2)) = q.
  Proof.
    intros Hv Hq0 HT Hs HT3 Hq. unfold run_t in *. cbv zeta in *. cbn [with_settings m_set m_built m_nodes m_elems m_forces m_bounds] in *.
    assert (HP : exists tp', parameters (cut K (Z.of_nat q) (m_set m)) = (tp', snd (parameters (m_set m)))).
    { exists (fst (parameters (cut K (Z.of_nat q) (m_set m)))). rewrite (parameters_same (m_set m)).
      pose proof (parameters_same (cut K (Z.of_nat q) (m_set m))) as HP. cbn [cut s_log s_j0 s_stepcontrol s_reduce] in HP. rewrite <- HP.
      apply surjective_pairing. }
    destruct HP as [tp' HP]. pose proof (parameters_plain (cut K (Z.of_nat q) (m_set m))) as Hb'. rewrite HP in Hb'. unfold all in Hb'. cbn [fst] in Hb'.
    pose proof (parameters_plain (m_set m)) as Hb. rewrite HP. clear HP.
    destruct (parameters (m_set m)) as [tp rp]. unfold all in Hb. cbn [fst snd] in *.
    assert (Hpl : forall u : list L, Forall both u -> Forall plain u) by (intros u0 Hu; eapply Forall_impl; [|exact Hu]; now intros l [Hl _]).
    destruct (plain_proj _ (Hpl _ Hb)) as (P1 & P2 & P3 & P4 & P5). destruct (plain_proj _ (Hpl _ Hb')) as (Q1 & Q2 & Q3 & Q4 & Q5).
    assert (Hno : forall X : list L, X = T1 ++ LStep (1 + Z.of_nat K) :: T2 ++ T3 -> steps_in X = [] -> False) by
     (intros X HX HX'; rewrite HX, steps_app in HX'; apply app_eq_nil in HX' as [_ HX']; discriminate).
    destruct rp as [[]| |]; cbn [tbind fst snd] in *; [|exfalso; apply (Hno _ HT); assumption..].
    destruct (m_built m) as [u|]; [|exfalso; cbn [quiet fst] in HT; rewrite app_nil_r in HT; exact (Hno _ HT P4)].
    destruct (m_nodes m) as [nh|]; [|exfalso; cbn [quiet fst] in HT; rewrite app_nil_r in HT; exact (Hno _ HT P4)].
    destruct (m_elems m) as [eh|]; [|exfalso; cbn [quiet fst] in HT; rewrite app_nil_r in HT; exact (Hno _ HT P4)].
    destruct (m_forces m) as [fh|]; [|exfalso; cbn [quiet fst] in HT; rewrite app_nil_r in HT; exact (Hno _ HT P4)].
    destruct (u_R u) as [|r0 rest]; [exfalso; cbn [quiet fst] in HT; rewrite app_nil_r in HT; exact (Hno _ HT P4)|].
    assert (HR : r0 :: r0 :: rest = (r0 :: removelast (r0 :: rest)) ++ [last (r0 :: rest) r0]).
    { cbn [app]. f_equal. apply app_removelast_last. discriminate. }
    change (s_nstatev (cut K (Z.of_nat q) (m_set m))) with (s_nstatev (m_set m)).
    change (s_nsteps (cut K (Z.of_nat q) (m_set m))) with (Z.of_nat (S K)). rewrite Nat2Z.id.
    set (c := Ctx _ _ _ _ _ _) in *. set (s0 := Rs _ _ _ _) in *. set (nsteps := Z.to_nat (s_nsteps (m_set m))) in *.
    destruct (foldT (run_step_t argsortF solve c (m_set m) (e_rows fh) nsteps fuel) (seq 0 nsteps) s0) as [tf rf] eqn:Ef.
    set (E := fun s => tbind (say _) _) in HT.
    assert (HE : exists e, fst (tbind (tf, rf) E) = tf ++ e /\ Forall both e).
    { destruct rf as [s1| |]; cbn [tbind fst snd]; [|exists []; rewrite app_nil_r; repeat constructor..].
      eexists. split; [reflexivity|]. unfold E. cbn [tbind say quiet fst snd]. rewrite app_nil_r. apply all_above. repeat constructor. }
    destruct HE as (e & HE & Hbe). rewrite HE in HT. destruct (plain_proj _ (Hpl _ Hbe)) as (B1 & B2 & B3 & B4 & B5).
    (* the first step line comes after the parameters, the last one before the end *)
    destruct (later_step _ _ _ _ _ (eq_sym HT) P4) as (T1' & -> & HT').
    assert (Hend : exists T2' T3' e2, T2 = T2' ++ e2 /\ steps_in T2' = [] /\ begins T3' /\ Forall both e2 /\ tf = T1' ++ LStep (1 + Z.of_nat K) :: T2' ++ T3').
    { clear - HT' B4 HT3 Hs Hbe. apply app_eq_app in HT' as (l & [[H1 H2]|[H1 H2]]).
      - destruct l as [|x l]; [rewrite app_nil_l in H2; rewrite <- H2 in B4; discriminate|]. injection H2 as <- H2.
        destruct HT3 as [->|(k & T3' & ->)].
        + rewrite app_nil_r in H2. exists l, [], e. rewrite app_nil_r. rewrite H2 in Hs. rewrite steps_app in Hs. apply app_eq_nil in Hs as [Hs _].
          split; [exact H2|]. split; [exact Hs|]. split; [now left|]. auto.
        + apply app_eq_app in H2 as (l2 & [[H3 H4]|[H3 H4]]).
          * exfalso. rewrite H4, steps_app in B4. apply app_eq_nil in B4 as [_ B4]. discriminate.
          * exists T2, l2, []. rewrite app_nil_r. split; [reflexivity|]. split; [exact Hs|]. split; [|split; [constructor|subst; reflexivity]].
            destruct l2 as [|y l2]; [now left|]. injection H4 as <- _. right. eauto.
      - exfalso. rewrite H2, steps_app in B4. apply app_eq_nil in B4 as [_ B4]. discriminate. }
    destruct Hend as (T2' & T3' & e2 & -> & Hs' & HT3' & He2 & Htf). destruct (plain_proj _ (Hpl _ He2)) as (D1 & D2 & _).
    rewrite increments_app, D1, app_nil_r in Hq. rewrite !finals_app, !increments_app, D1, D2, P1, P2, !app_nil_r. cbn [app].
    assert (Hfst : fst (foldT (run_step_t argsortF solve c (m_set m) (e_rows fh) nsteps fuel) (seq 0 nsteps) s0) = T1' ++ LStep (1 + Z.of_nat K) :: T2' ++ T3')
      by (rewrite Ef; exact Htf).
    destruct (run_steps_cut c (m_set m) (e_rows fh) nsteps fuel q K Hv Hq0 nsteps 0 s0 T1' T2' T3' _ _ eq_refl Hfst Hs' HT3' Hq HR)
      as (_ & T' & s' & I1 & I2 & I3 & I4).
    rewrite Nat.sub_0_r in I1. rewrite I1. unfold tbind. cbn [say quiet fst snd]. do 3 eexists. split; [reflexivity|].
    set (e' := above _ _ _). assert (Hbe' : Forall both e') by (apply all_above; repeat constructor).
    destruct (plain_proj _ (Hpl _ Hbe')) as (E1 & E2 & _). rewrite !finals_app, !increments_app, Q1, Q2, E1, E2, !app_nil_r. cbn [app]. auto.
  Qed.
End Cut.
