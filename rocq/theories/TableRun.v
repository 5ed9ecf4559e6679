(** * The printed tables of build and run *)
From Coq Require Import List ZArith Bool Arith Lia.
Import ListNotations.
From Verif Require Import Num Vec Handlers Material Analysis Truss Equil Solver Run Text SpecSolver SpecRun SpecText SpecTable
  ListFacts RunFacts RunProps TextFacts TextProps TableFacts TablePath.

Section Run.
  Context {F : Type} `{NF : Num F}.
  Variable argsortF : list F -> list nat.
  Variable solve : list (list F) -> list F -> list F.
  Notation L := (line F).

  (** ** Lines of the solver *)
  Definition solverline (l : L) : Prop :=
    match l with LParam _ | LConst _ | LStart _ => False | _ => True end.
  Lemma solver_facts (t : list L) : Forall solverline t -> params_in t = [] /\ constants_in t = [] /\ starts_in t = [].
  Proof.
    unfold params_in, constants_in, starts_in. induction 1 as [|l t Hl _ (E1 & E2 & E3)]; [auto|]. cbn [flat_map]. rewrite E1, E2, E3.
    destruct l; cbn in *; auto; contradiction.
  Qed.
  Lemma params_app (a b : list L) : params_in (a ++ b) = params_in a ++ params_in b.
  Proof. apply flat_map_app. Qed.
  Lemma constants_app (a b : list L) : constants_in (a ++ b) = constants_in a ++ constants_in b.
  Proof. apply flat_map_app. Qed.
  Lemma starts_app (a b : list L) : starts_in (a ++ b) = starts_in a ++ starts_in b.
  Proof. apply flat_map_app. Qed.
  Ltac aq := apply all_bind; [first [apply all_quiet|apply all_above; repeat constructor|(repeat constructor; fail)]|].

  Lemma newton_solverline {S : Type} v fn dfn x nfev ftol xtol (s : S) : all solverline (newton_t solve v fn dfn x nfev ftol xtol s).
  Proof. eapply Forall_impl; [|apply newton_lines]. intros l Hl. destruct l; cbn in *; tauto. Qed.
  Lemma dxmax_solverline cfg dxmax dxmax0 j j0 z ok b n nfev : all solverline (dxmax_control_t cfg dxmax dxmax0 j j0 z ok b n nfev).
  Proof.
    unfold dxmax_control_t. aq; intros d. aq; intros d0. destruct (negb ok).
    - destruct (fltb _ _); [|apply all_quiet]. cbv zeta. apply all_bind; [destruct (_ =? _)%Z; repeat constructor|]. intros _.
      destruct (_ || _); [|apply all_quiet]. destruct (feqb _ _); [apply all_quiet|]. aq; intros; apply all_quiet.
    - destruct (fltb _ _); [|destruct (_ =? _)%Z; apply all_quiet]. destruct (j0 =? j)%Z; [|apply all_quiet].
      destruct (0 <? z)%Z; [apply all_quiet|]. destruct (b <=? 3)%Z; cbv zeta; aq; intros; apply all_quiet.
  Qed.
  Lemma predict_solverline v g dg cfg x dxmax j an : all solverline (predict_t argsortF solve v g dg cfg x dxmax j an).
  Proof.
    unfold predict_t. aq; intros xj. aq; intros dj. cbv zeta. apply all_bind; [apply newton_solverline|].
    intros [an1 o]. aq; intros Dx. aq; intros [i1 v1]. aq; intros j'. aq; intros _. apply all_quiet.
  Qed.
  Lemma recycle_solverline v g dg cfg x0 dxmax0 pre fuel : forall s,
    all solverline (recycle_t argsortF solve v g dg cfg x0 dxmax0 pre fuel s).
  Proof.
    induction fuel as [|fuel IH]; intros s; cbn [recycle_t]; [apply all_quiet|].
    aq; intros _. cbv zeta. aq; intros xj. aq; intros dj. aq; intros xs. apply all_bind; [apply newton_solverline|].
    intros [an1 o]. aq; intros Dx. aq; intros [i1 v1]. destruct (Nat.ltb _ 2); [apply all_quiet|].
    destruct (ranked argsortF Dx (rc_dxmax s) 1) as [i2 v2]. destruct (if Nat.ltb 2 _ then _ else _) as [i3 v3].
    aq; intros _. aq; intros j. aq; intros q. aq; intros valid. apply all_bind.
    { destruct (cf_stepcontrol cfg); [apply dxmax_solverline|apply all_quiet]. }
    intros [[[dx' z'] b'] ch]. destruct (valid && _); [aq; intros [? ?]; apply all_quiet|].
    destruct (_ =? _)%Z; [aq; intros; apply all_quiet|]. destruct (_ && negb ch); [aq; intros; apply all_quiet|].
    aq; intros _. apply IH.
  Qed.
  Lemma increment_solverline v g dg cfg dxmax0 fuel i s : all solverline (increment_t argsortF solve v g dg cfg dxmax0 fuel i s).
  Proof.
    unfold increment_t. apply all_bind; [apply Forall_app; split; apply all_above; repeat constructor|]. intros _. cbv zeta. apply all_bind.
    - destruct (_ && _).
      + apply all_bind; [apply predict_solverline|]. intros p. destruct (pr_success p); [apply all_quiet|].
        apply all_bind; [apply recycle_solverline|]. intros [[r x] st]. apply all_quiet.
      + apply all_bind; [apply recycle_solverline|]. intros [[r x] st]. apply all_quiet.
    - intros [s' stop]. aq; intros _. apply all_quiet.
  Qed.
  Lemma increments_solverline v g dg cfg dxmax0 fuel : forall k i s, all solverline (increments_t argsortF solve v g dg cfg dxmax0 fuel k i s).
  Proof.
    induction k as [|k IH]; intros i s; cbn [increments_t]; [apply all_quiet|].
    apply all_bind; [apply increment_solverline|]. intros [s1 stop]. destruct stop; [apply all_quiet|]. aq; intros lim.
    destruct lim; [|apply IH]. aq; intros _. apply all_quiet.
  Qed.
  Lemma pathfollow_solverline v g dg Ured an d j jpre cfg fuel : all solverline (pathfollow_t argsortF solve v g dg Ured an d j jpre cfg fuel).
  Proof.
    unfold pathfollow_t. cbv zeta. destruct (negb _); [apply increments_solverline|].
    destruct j as [j|]; [apply increments_solverline|]. destruct (_ <=? 0)%Z; [apply all_quiet|].
    unfold all. cbn [fst]. repeat (apply Forall_app; split); apply all_above; repeat constructor.
  Qed.

  (** ** The vector a step hands over *)
  Definition rounded (a : analysis F) : Prop := exists x, x <> [] /\ a_Vred a = x /\ a_Ured a = removelast x.
  Lemma recycle_two v g dg cfg x0 dxmax0 pre fuel : forall s t r x stop,
    recycle_t argsortF solve v g dg cfg x0 dxmax0 pre fuel s = (t, Ok (r, x, stop)) -> (2 <= length x)%nat.
  Proof.
    induction fuel as [|fuel IH]; intros s t r x stop H; cbn [recycle_t] in H; [discriminate|].
    tsay H t1. cbv zeta in H. tq H xj E1. tq H dj E2. tq H xs E3. ts H [an1 o] tn t2 En. tq H Dx E4. tq H [i1 v1] E5.
    destruct (Nat.ltb_spec (length (no_x o)) 2) as [Hlx|Hlx]; [discriminate|].
    destruct (ranked argsortF Dx (rc_dxmax s) 1) as [i2 v2]. destruct (if Nat.ltb 2 _ then _ else _) as [i3 v3].
    tsay H t3. tq H j E6. tq H q E7. tq H valid E8. ts H [[[dx' z'] b'] ch] tc t4 Ec.
    destruct (valid && no_success o).
    - tq H [an3 ?] Ef. apply quiet_ok in H as [_ H]. injection H as _ <- _. exact Hlx.
    - destruct (z' + 1 =? _)%Z; [tsay H t5; apply quiet_ok in H as [_ H]; injection H as _ <- _; exact Hlx|].
      destruct (_ && negb (no_success o) && negb ch); [tsay H t5; apply quiet_ok in H as [_ H]; injection H as _ <- _; exact Hlx|].
      tsay H t5. exact (IH _ _ _ _ _ H).
  Qed.
  Lemma increment_rounded v g dg cfg dxmax0 fuel i s t s' stop : ps_x s <> [] ->
    increment_t argsortF solve v g dg cfg dxmax0 fuel i s = (t, Ok (s', stop)) -> ps_x s' <> [] /\ rounded (ps_an s').
  Proof.
    intros Hx H. unfold increment_t in H. tsay H t1. cbv zeta in H. ts H [s1 st1] tb t2 E. tsay H t3. apply quiet_ok in H as [_ H]. injection H as <- <-.
    assert (Hr : forall g' t' r x st pre s0, recycle_t argsortF solve v g' dg cfg (ps_x s) dxmax0 pre fuel s0 = (t', Ok (r, x, st)) -> x <> []).
    { intros g' t' r x st pre s0 H. apply recycle_two in H. destruct x; [cbn in H; lia|discriminate]. }
    destruct (_ && _).
    - ts E p tp t4 Ep. destruct (pr_success p).
      + apply quiet_ok in E as [_ E]. injection E as <- <-. cbn [ps_x ps_an]. split; [exact Hx|]. exists (ps_x s). auto.
      + ts E [[r x] st2] tr t5 Er. apply quiet_ok in E as [_ E]. injection E as <- <-. apply Hr in Er. cbn [ps_x ps_an]. split; [exact Er|]. exists x. auto.
    - ts E [[r x] st2] tr t5 Er. apply quiet_ok in E as [_ E]. injection E as <- <-. apply Hr in Er. cbn [ps_x ps_an]. split; [exact Er|]. exists x. auto.
  Qed.
  Lemma increments_rounded v g dg cfg dxmax0 fuel : forall k i s t s', ps_x s <> [] -> rounded (ps_an s) ->
    increments_t argsortF solve v g dg cfg dxmax0 fuel k i s = (t, Ok s') -> rounded (ps_an s').
  Proof.
    induction k as [|k IH]; intros i s t s' Hx Hr H; cbn [increments_t] in H; [apply quiet_ok in H as [_ H]; injection H as <-; exact Hr|].
    ts H [s1 stop] t1 t2 E. apply increment_rounded in E as [Hx1 Hr1]; [|exact Hx].
    destruct stop; [apply quiet_ok in H as [_ H]; injection H as <-; exact Hr1|]. tq H lim E2. destruct lim; [|exact (IH _ _ _ _ Hx1 Hr1 H)].
    tsay H t3. apply quiet_ok in H as [_ H]. injection H as <-. exact Hr1.
  Qed.
  Lemma pathfollow_rounded v g dg Ured an d j jpre cfg fuel t s : rounded an ->
    pathfollow_t argsortF solve v g dg Ured an d j jpre cfg fuel = (t, Ok s) -> rounded (ps_an s).
  Proof.
    intros Hr H. unfold pathfollow_t in H. cbv zeta in H.
    assert (Hx : Ured ++ [f0] <> []) by (destruct Ured; discriminate).
    destruct (negb _); [eapply increments_rounded; [| |exact H]; assumption|].
    destruct j as [j|]; [eapply increments_rounded; [| |exact H]; assumption|]. destruct (_ <=? 0)%Z; [|discriminate].
    apply quiet_ok in H as [_ H]. injection H as <-. exact Hr.
  Qed.
  (** Displacements and a load factor of 0. *)
  Definition fresh (a : analysis F) : Prop := a_Vred a = a_Ured a ++ [f0].
  Lemma fresh_rounded a : fresh a -> rounded a.
  Proof. intros H. exists (a_Ured a ++ [f0]). split; [destruct (a_Ured a); discriminate|]. split; [exact H|]. now rewrite removelast_last. Qed.
  Lemma rounded_fresh a : rounded a -> fresh (handed_over a).
  Proof. intros (x & Hx & E1 & E2). unfold fresh, handed_over. cbn. rewrite E1, E2. destruct x; [congruence|reflexivity]. Qed.

  (** ** Steps *)
  Definition said (st : settings F) (k : nat) (t : list L) (lg : step_log F) : Prop :=
    params_in t = [] /\
    constants_in t = (if Nat.eqb k 0 then [] else [a_fconst (lg_start lg)]) /\
    starts_in t = (if Nat.eqb k 0 then [] else [a_Ured (lg_start lg) ++ [f0]]) /\
    (argsort_sorts argsortF -> (1 < s_log st)%Z -> s_j0 st = None -> step_shows (pow10neg (s_ftol st)) (skips_of st) t lg).

  Lemma writes_after n (ls : list F) : forall i, Forall (@after F) (writes i n ls).
  Proof. induction ls as [|l ls IH]; intros i; [constructor|]. constructor; [split; exact I|apply IH]. Qed.
  Lemma writes_solverline n (ls : list F) : forall i, Forall solverline (writes i n ls).
  Proof. induction ls as [|l ls IH]; intros i; [constructor|]. constructor; [exact I|apply IH]. Qed.

  Lemma run_step_table c st rows nsteps fuel done w s k t s' :
    run_step_t argsortF solve c st rows nsteps fuel s k = (t, Ok s') ->
    r_R s = done ++ [w] -> fresh (r_an s) ->
    exists lg, step_starts rows (r_lpf_end s) k (r_an s) (lg_start lg) /\
      step_ran argsortF solve c st fuel k lg /\
      r_lpf_end s' = r_lpf_end s ++ [lg_end (a_lpf w) lg] /\
      r_out s' = r_out s ++ lg_out lg /\
      (if Nat.ltb (k + 1) nsteps
       then r_an s' = handed_over (lg_final lg) /\ fresh (r_an s') /\
            exists w', r_R s' = (done ++ lg_results lg) ++ [w'] /\ a_lpf w' = lg_end (a_lpf w) lg
       else r_an s' = lg_final lg /\ r_R s' = done ++ lg_results lg) /\
      said st k t lg.
  Proof.
    intros H HR Hfr. unfold run_step_t in H. cbv zeta in H.
    tq H incs Hincs. tq H xl Hxl. tsay H t1. tq H fconst Hfc. tsay H t2. tq H f0red Hg.
    ts H pf tp t3 Hpf. tsay H t4. tq H lpf Hlpf. tsay H t5. apply quiet_ok in H as [-> H].
    assert (Han : step_setup rows k s = Ok (set_step (1 + Z.of_nat k)%Z (set_f0red f0red (set_forces (block k rows) (set_fconst fconst (r_an s)))))).
    { unfold step_setup. rewrite Hfc. cbn [bind]. rewrite Hg. reflexivity. }
    apply step_setup_ok in Han.
    assert (Efc : fconst = a_fconst (set_step (1 + Z.of_nat k)%Z (set_f0red f0red (set_forces (block k rows) (set_fconst fconst (r_an s)))))) by reflexivity.
    assert (Efv : a_Vred (r_an s) = a_Ured (set_step (1 + Z.of_nat k)%Z (set_f0red f0red (set_forces (block k rows) (set_fconst fconst (r_an s))))) ++ [f0])
      by exact Hfr.
    assert (Hfr2 : fresh (set_step (1 + Z.of_nat k)%Z (set_f0red f0red (set_forces (block k rows) (set_fconst fconst (r_an s)))))) by exact Hfr.
    set (an := set_step _ _) in *.
    assert (Hpf' := f_equal snd Hpf). rewrite pathfollow_same in Hpf'. cbn [snd] in Hpf'.
    change (pathfollow solve argsortF (equilibrium c) (stiffness c) (a_Ured an) an
      (DxVec [s_du st; s_dlpf st]) (s_j0 st) (s_jpre st) (pf_config st xl incs) fuel = Ok pf) in Hpf'.
    destruct (pathfollow_shape _ _ _ _ _ _ _ _ _ _ _ _ Hpf') as (recs0 & Hres0 & Hlast).
    pose proof (pathfollow_solverline (s_log st) (fun V V0 w a => equilibrium c V V0 w a) (fun U a => stiffness c U a) (a_Ured an) an
      (DxVec [s_du st; s_dlpf st]) (s_j0 st) (s_jpre st) (pf_config st xl incs) fuel) as Hsl. rewrite Hpf in Hsl. unfold all in Hsl. cbn [fst] in Hsl.
    pose proof (pathfollow_rounded _ _ _ _ _ _ _ _ _ _ _ _ (fresh_rounded _ Hfr2) Hpf) as Hrd.
    assert (Htab : argsort_sorts argsortF -> (1 < s_log st)%Z -> s_j0 st = None ->
      told_path (pow10neg (s_ftol st)) (skips_of st) (a_Ured an ++ [f0]) (Z.of_nat (S (length (a_Ured an)))) tp recs0).
    { intros Hs Hv Hj. rewrite Hj in Hpf. apply (pathfollow_table argsortF solve Hs) in Hpf; [|exact Hv]. destruct Hpf as (recs & R1 & R2).
      rewrite Hres0 in R1. injection R1 as <-. exact R2. }
    apply pathfollow_text in Hpf as (recs & Hres & (_ & _ & Hst & _)). rewrite Hres in Hres0. injection Hres0 as <-.
    rewrite Hres, HR in H, Hlpf. cbn [tl] in H, Hlpf. rewrite write_results in H, Hlpf.
    rewrite app_assoc, copy_U_snoc in H, Hlpf. rewrite rev_app_distr in Hlpf. cbn [rev app a_lpf set_U0] in Hlpf. injection Hlpf as <-.
    exists (Log an recs (ps_out pf)).
    split; [exact Han|]. split.
    { exists incs, xl, pf. cbn [lg_start lg_recs lg_out]. split; [apply at_step_in; assumption|]. split; [|auto].
      apply at_step_in. destruct (s_xlimit st) as [|[|]]; [exact Hxl|discriminate|exact Hxl]. }
    assert (Hend : lg_end (a_lpf w) (Log an recs (ps_out pf)) = a_lpf (last (map snd recs) w))
      by apply lg_end_last.
    assert (Hfin : ps_an pf = lg_final (Log an recs (ps_out pf))).
    { unfold lg_final. cbn [lg_recs lg_start]. rewrite (last_snd recs [] (a_Ured an ++ [f0])).
      rewrite <- Hlast. reflexivity. }
    rewrite Hend.
    split; [destruct (Nat.ltb (k + 1) nsteps); injection H as <-; reflexivity|].
    split; [destruct (Nat.ltb (k + 1) nsteps); injection H as <-; reflexivity|].
    split.
    { destruct (Nat.ltb (k + 1) nsteps); injection H as <-; cbn [r_an r_R r_lpf_end r_out lg_out lg_results lg_recs].
      - split; [rewrite <- Hfin; reflexivity|]. split; [apply rounded_fresh, Hrd|]. eexists. split; reflexivity.
      - split; [assumption|]. apply removelast_last. }
    clear H. rewrite app_nil_r, Hres. cbn [tl]. rewrite Efv. rewrite Efc at 1.
    change (map snd recs) with (lg_results (Log an recs (ps_out pf))).
    unfold said.
    change (argsort_sorts argsortF -> (1 < s_log st)%Z -> s_j0 st = None ->
      told_path (pow10neg (s_ftol st)) (skips_of st) (a_Ured (lg_start (Log an recs (ps_out pf))) ++ [f0])
        (Z.of_nat (S (length (a_Ured (lg_start (Log an recs (ps_out pf))))))) tp (lg_recs (Log an recs (ps_out pf)))) in Htab.
    change (LConst (a_fconst an)) with (LConst (a_fconst (lg_start (Log an recs (ps_out pf))))).
    change (LStart (a_Ured an ++ [f0])) with (LStart (a_Ured (lg_start (Log an recs (ps_out pf))) ++ [f0])).
    set (lg := Log an recs (ps_out pf)) in *. clearbody lg. clear - Htab Hsl Hst.
    destruct (solver_facts _ Hsl) as (S1 & S2 & S3).
    set (v := s_log st) in *.
    set (h1 := above v 0 [LStep (1 + Z.of_nat k)] ++ above v 1 [LHelp 1; LHelp 2; LHelp 3; LHelp 4; LHelp 5; LFormula]).
    set (h2 := if Nat.eqb k 0 then [] else _). set (e1 := above v 1 _). set (e2 := above v 0 [LEndStep _]).
    assert (P1 : Forall solverline h1) by (apply Forall_app; split; apply all_above; repeat constructor).
    assert (P2 : Forall solverline e1) by (apply all_above; do 3 (constructor; [exact I|]); apply writes_solverline).
    assert (P3 : Forall solverline e2) by (apply all_above; repeat constructor).
    destruct (solver_facts _ P1) as (A1 & A2 & A3). destruct (solver_facts _ P2) as (B1 & B2 & B3). destruct (solver_facts _ P3) as (C1 & C2 & C3).
    rewrite !params_app, !constants_app, !starts_app, A1, A2, A3, B1, B2, B3, C1, C2, C3, S1, S2, S3, !app_nil_r. cbn [app].
    split; [unfold h2; destruct (Nat.eqb k 0); reflexivity|]. split; [unfold h2; destruct (Nat.eqb k 0); reflexivity|].
    split; [unfold h2; destruct (Nat.eqb k 0); reflexivity|]. intros Hs Hv Hj. specialize (Htab Hs Hv Hj).
    unfold h1. rewrite !above_on by lia. cbn [app].
    assert (Ht : told_path (pow10neg (s_ftol st)) (skips_of st) (a_Ured (lg_start lg) ++ [f0]) (Z.of_nat (S (length (a_Ured (lg_start lg)))))
      ([LHelp 1; LHelp 2; LHelp 3; LHelp 4; LHelp 5; LFormula] ++ h2 ++ (tp ++ e1) ++ e2) (lg_recs lg)).
    { apply told_before; [|repeat constructor]. apply told_before; [|unfold h2; destruct (Nat.eqb k 0); repeat constructor].
      apply told_more; [|apply all_above; repeat constructor]. apply told_more; [exact Htab|].
      apply all_above. do 3 (constructor; [split; exact I|]). apply writes_after. }
    destruct Ht as (head & parts & Et & Hh & Hp). rewrite <- app_assoc in Et. destruct (after_facts _ Hh) as (H1 & H2 & _).
    exists (1 + Z.of_nat k)%Z, head, parts. cbn [app] in Et. rewrite <- Et. split; [reflexivity|]. split; [|auto].
    change (steps_in (h2 ++ tp ++ e1 ++ e2) = []). rewrite !steps_app, Hst.
    assert (E1 : steps_in h2 = []) by (unfold h2; destruct (Nat.eqb k 0); reflexivity).
    assert (E2 : steps_in e1 = []).
    { unfold e1, above. destruct (1 <? v)%Z; [|reflexivity]. apply (writes_messages (length (lg_results lg)) (map a_lpf (lg_results lg)) 1). }
    assert (E3 : steps_in e2 = []) by (unfold e2, above; destruct (0 <? v)%Z; reflexivity).
    rewrite E1, E2, E3. reflexivity.
  Qed.

  Inductive all_said (st : settings F) : nat -> list (list L) -> list (step_log F) -> Prop :=
  | as_nil k : all_said st k [] []
  | as_cons k t ts lg logs : said st k t lg -> all_said st (S k) ts logs -> all_said st k (t :: ts) (lg :: logs).

  Lemma run_steps_table c st rows nsteps fuel : forall n k s t s' done w,
    (k + n = nsteps)%nat -> (0 < n)%nat ->
    foldT (run_step_t argsortF solve c st rows nsteps fuel) (seq k n) s = (t, Ok s') ->
    r_R s = done ++ [w] -> fresh (r_an s) ->
    exists logs ts, length logs = n /\
      steps_from argsortF solve c st rows fuel k (r_an s) (r_lpf_end s) (a_lpf w) logs /\
      r_R s' = done ++ concat (map lg_results logs) /\
      r_lpf_end s' = r_lpf_end s ++ ends (a_lpf w) logs /\
      r_out s' = r_out s ++ concat (map lg_out logs) /\
      (forall d, r_an s' = lg_final (last logs d)) /\
      t = concat ts /\ all_said st k ts logs.
  Proof.
    induction n as [|n IH]; intros k s t s' done w Hk Hn H HR Hfr; [lia|].
    cbn [seq foldT] in H. ts H s1 t1 t2 H1.
    destruct (run_step_table _ _ _ _ _ _ _ _ _ _ _ H1 HR Hfr) as (lg & Hst & Hran & Hlp & Hout & Hc & Ht1).
    destruct (Nat.ltb_spec (k + 1) nsteps) as [L0|L0].
    - destruct Hc as (Han & Hfr1 & w' & HR1 & Hw').
      destruct (IH (S k) s1 _ s' _ w' ltac:(lia) ltac:(lia) H HR1 Hfr1)
        as (logs & ts & Hlen & Hfrom & HR' & Hlp' & Hout' & Hfin & -> & Ht2).
      exists (lg :: logs), (t1 :: ts). rewrite Han, Hlp, Hw' in Hfrom. rewrite Hw' in Hlp'.
      split; [cbn [length]; lia|]. split; [cbn [steps_from]; auto|].
      split; [cbn [map concat]; rewrite HR', <- app_assoc; reflexivity|].
      split; [cbn [ends]; rewrite Hlp', Hlp, <- app_assoc; reflexivity|].
      split; [cbn [map concat]; rewrite Hout', Hout, <- app_assoc; reflexivity|].
      split; [intros d; rewrite (Hfin d); destruct logs; [cbn in Hlen; lia|reflexivity]|].
      split; [reflexivity|]. now constructor.
    - assert (n = 0)%nat as -> by lia. cbn [seq foldT] in H. apply quiet_ok in H as [-> H]. injection H as <-. destruct Hc as [Han HR1].
      exists [lg], [t1]. rewrite app_nil_r. split; [reflexivity|]. split; [cbn [steps_from]; auto|]. cbn [map concat ends last]. rewrite !app_nil_r.
      split; [exact HR1|]. split; [exact Hlp|]. split; [exact Hout|]. split; [auto|]. split; [reflexivity|]. repeat constructor; apply Ht1.
  Qed.

  Lemma parameters_table (st : settings F) t : parameters st = (t, Ok tt) ->
    params_in t = (if (1 <? s_log st)%Z then settings_table st else []) /\ constants_in t = [] /\ starts_in t = [] /\ steps_in t = [] /\
    ((1 < s_log st)%Z -> s_j0 st = None).
  Proof.
    unfold parameters, settings_table. destruct (Z.ltb_spec 1 (s_log st)) as [Hv|Hv]; [|intros H; injection H as <-; repeat split; lia].
    intros H. tsay H t1. destruct (s_j0 st); [discriminate|]. tsay H t2. ts H [] tc t3 Ec. apply say_ok in H. subst t3.
    destruct (s_stepcontrol st).
    - tsay Ec t4. destruct (feqb _ _); [discriminate|]. apply say_ok in Ec. subst t4. repeat split.
    - apply say_ok in Ec. subst tc. repeat split.
  Qed.

  Lemma all_said_facts st : forall ts k logs, all_said st k ts logs -> 
    params_in (concat ts) = [] /\
    constants_in (concat ts) = map (fun lg => a_fconst (lg_start lg)) (if Nat.eqb k 0 then tl logs else logs) /\
    starts_in (concat ts) = map (fun lg => a_Ured (lg_start lg) ++ [f0]) (if Nat.eqb k 0 then tl logs else logs) /\
    (argsort_sorts argsortF -> (1 < s_log st)%Z -> s_j0 st = None -> Forall2 (step_shows (pow10neg (s_ftol st)) (skips_of st)) ts logs).
  Proof.
    intros ts k logs H. induction H as [k|k t ts lg logs (S1 & S2 & S3 & S4) H (I1 & I2 & I3 & I4)]; [destruct (Nat.eqb k 0); auto|].
    cbn [concat]. rewrite params_app, constants_app, starts_app, S1, S2, S3, I1, I2, I3. cbn [Nat.eqb].
    split; [reflexivity|]. destruct (Nat.eqb k 0); cbn; auto 6.
  Qed.

  Lemma step_steps ftol sk u lg : step_shows ftol sk u lg -> exists k b, u = LStep k :: b /\ steps_in b = [].
  Proof. intros (k & head & parts & -> & H & _). eauto. Qed.
  Lemma step_more ftol sk u lg e : step_shows ftol sk u lg -> Forall (@after F) e -> steps_in e = [] -> step_shows ftol sk (u ++ e) lg.
  Proof.
    intros (k & head & parts & -> & H1 & H2 & H3 & H4) He Hs. destruct parts as [|p ps].
    - exists k, (head ++ e), []. destruct (after_facts _ He) as (E1 & E2 & _). cbn [concat] in *. rewrite !app_nil_r in *.
      rewrite steps_app, increments_app, rows_app, H1, H2, H3, E1, E2, Hs. auto.
    - destruct (path_more _ _ _ _ _ _ H4 e He ltac:(discriminate)) as (ps' & Ep & Hp). exists k, head, ps'. rewrite Ep.
      rewrite (app_assoc head), steps_app, H1, Hs. auto.
  Qed.

  Lemma run_table m fuel t m' out :
    run_t argsortF solve m fuel = (t, Ok (m', out)) -> (0 < s_nsteps (m_set m))%Z ->
    exists logs, ran_as argsortF solve m fuel m' out logs /\
      params_in t = (if (1 <? s_log (m_set m))%Z then settings_table (m_set m) else []) /\
      constants_in t = map (fun lg => a_fconst (lg_start lg)) (tl logs) /\
      starts_in t = map (fun lg => a_Ured (lg_start lg) ++ [f0]) (tl logs) /\
      (argsort_sorts argsortF -> (1 < s_log (m_set m))%Z ->
       exists head ts, t = head ++ concat ts /\ steps_in head = [] /\
         Forall2 (step_shows (pow10neg (s_ftol (m_set m))) (skips_of (m_set m))) ts logs).
  Proof.
    intros H Hns. assert (Hrun := f_equal snd H). rewrite run_same in Hrun. cbn [snd] in Hrun.
    unfold run_t in H. cbv zeta in H. ts H [] tp t2 Ep.
    destruct (m_built m) as [u|] eqn:Eu; [|discriminate].
    destruct (m_nodes m) as [nh|] eqn:En; [|discriminate].
    destruct (m_elems m) as [eh|] eqn:Ee; [|discriminate].
    destruct (m_forces m) as [fh|] eqn:Ef; [|discriminate].
    destruct (u_R u) as [|r0 rest] eqn:ER; [discriminate|].
    ts H s t3 t4 Hs. tsay H t5. apply quiet_ok in H as [-> H]. injection H as <- <-.
    assert (HR : r0 :: r0 :: rest = (r0 :: removelast (r0 :: rest)) ++ [last (r0 :: rest) r0]).
    { cbn [app]. f_equal. apply app_removelast_last. discriminate. }
    destruct (run_steps_table _ _ _ _ _ (Z.to_nat (s_nsteps (m_set m))) 0%nat _ _ _ _ _ eq_refl ltac:(lia) Hs HR eq_refl)
        as (logs & ts & Hlen & Hfrom & HR' & Hlp & Hout & Hfin & -> & Ht).
    exists logs. cbn [r_an r_lpf_end r_out] in *. split.
    { split; [exact Hrun|]. split; [lia|]. split; [intros ->; cbn in Hlen; lia|].
      exists u, nh, eh, fh, r0, rest. eexists. rewrite ER. cbn [m_built]. do 5 (split; [eauto|]). split; [reflexivity|].
      repeat match goal with |- _ /\ _ => split end; assumption. }
    destruct (parameters_table _ _ Ep) as (P1 & P2 & P3 & P4 & P5).
    destruct (all_said_facts _ _ _ _ Ht) as (S1 & S2 & S3 & S4). cbn [Nat.eqb] in S2, S3.
    set (e := above _ _ _). rewrite app_nil_r.
    assert (He : Forall solverline e) by (apply all_above; repeat constructor). destruct (solver_facts _ He) as (E1 & E2 & E3).
    rewrite !params_app, !constants_app, !starts_app, P1, P2, P3, S1, S2, S3, E1, E2, E3, !app_nil_r.
    split; [reflexivity|]. split; [reflexivity|]. split; [reflexivity|].
    intros Hso Hv. specialize (S4 Hso Hv (P5 Hv)).
    destruct ts as [|t0 ts _] using rev_ind; [inversion S4; subst; cbn in Hlen; lia|].
    apply Forall2_app_inv_l in S4 as (l1 & l2 & F1 & F2 & ->). inversion F2 as [|? lg ? ? Hs0 F0]; subst. inversion F0; subst.
    exists tp, (ts ++ [t0 ++ e]). rewrite !concat_app. cbn [concat]. rewrite !app_nil_r, <- !app_assoc. split; [reflexivity|].
    split; [exact P4|]. apply Forall2_app; [exact F1|]. constructor; [|constructor]. apply step_more; [exact Hs0| |].
    - apply all_above. repeat constructor.
    - unfold e, above. destruct (1 <? _)%Z; reflexivity.
  Qed.
End Run.
