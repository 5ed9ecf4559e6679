(** * The printed tables of a path *)
From Coq Require Import List ZArith Bool Arith Lia.
Import ListNotations.
From Verif Require Import Num Vec Handlers Material Analysis Truss Equil Solver Run Text SpecSolver SpecRun SpecText SpecTable
  ListFacts RunFacts RunProps TextFacts TextProps TableFacts.

Section Path.
  Context {F : Type} `{NF : Num F}.
  Variable argsortF : list F -> list nat.
  Variable solve : list (list F) -> list F -> list F.
  Hypothesis Hsort : argsort_sorts argsortF.
  Notation L := (line F).

  Lemma dxmax_z cfg dxmax dxmax0 j j0 z ok b n nfev t d z' b' ch :
    dxmax_control_t cfg dxmax dxmax0 j j0 z ok b n nfev = (t, Ok (d, z', b', ch)) -> z' = z \/ z' = 0%Z.
  Proof.
    unfold dxmax_control_t. intros H. tq H d1 E1. tq H d2 E2. destruct (negb ok).
    - destruct (fltb _ _); [|apply quiet_ok in H as [_ H]; injection H; auto].
      cbv zeta in H. tsay H t3. destruct (_ =? cf_cycl cfg)%Z.
      + rewrite orb_true_r in H. destruct (feqb _ _); [discriminate|]. tsay H t4. apply quiet_ok in H as [_ H]. injection H; auto.
      + rewrite orb_false_r in H. destruct (j0 =? j)%Z; [|apply quiet_ok in H as [_ H]; injection H; auto].
        destruct (feqb _ _); [discriminate|]. tsay H t4. apply quiet_ok in H as [_ H]. injection H; auto.
    - destruct (fltb _ _).
      + destruct (j0 =? j)%Z; [|apply quiet_ok in H as [_ H]; injection H; auto].
        destruct (0 <? z)%Z; [apply quiet_ok in H as [_ H]; injection H; auto|].
        destruct (b <=? 3)%Z; cbv zeta in H; tsay H t4; apply quiet_ok in H as [_ H]; injection H; auto.
      + destruct (j =? j0)%Z; apply quiet_ok in H as [_ H]; injection H; auto.
  Qed.
  Lemma dxmax_rowless cfg dxmax dxmax0 j j0 z ok b n nfev : all rowless (dxmax_control_t cfg dxmax dxmax0 j j0 z ok b n nfev).
  Proof.
    unfold dxmax_control_t. apply all_bind; [apply all_quiet|]. intros d. apply all_bind; [apply all_quiet|]. intros d0.
    destruct (negb ok).
    - destruct (fltb _ _); [|apply all_quiet]. cbv zeta. apply all_bind; [destruct (_ =? _)%Z; repeat constructor|]. intros _.
      destruct (_ || _); [|apply all_quiet]. destruct (feqb _ _); [apply all_quiet|]. apply all_bind; [repeat constructor|]. intros; apply all_quiet.
    - destruct (fltb _ _); [|destruct (_ =? _)%Z; apply all_quiet]. destruct (j0 =? j)%Z; [|apply all_quiet].
      destruct (0 <? z)%Z; [apply all_quiet|]. destruct (b <=? 3)%Z; cbv zeta; (apply all_bind; [repeat constructor|]; intros; apply all_quiet).
  Qed.

  Lemma signed_points i v j : signed_index i v = Ok j -> points (i, v) j.
  Proof.
    unfold signed_index, points. cbn [fst snd]. destruct (fisnan v); [discriminate|]. intros H. injection H as <-.
    destruct (fltb f0 v); [lia|]. destruct (fltb v f0); lia.
  Qed.

  Lemma bcast_len {A} (f : F -> F -> A) (a b : list F) c : bcast2 f a b = Ok c -> (2 <= length a)%nat -> length c = length a.
  Proof.
    unfold bcast2. intros H Ha. destruct (Nat.eqb_spec (length a) (length b)) as [E|E].
    - injection H as <-. rewrite map2_len; lia.
    - destruct a as [|a1 [|a2 a]]; cbn [length] in *; try lia. destruct b as [|b1 [|]]; try discriminate. injection H as <-. cbn. now rewrite map_length.
  Qed.

  Lemma recycle_table c v dg cfg x0 dxmax0 pre fuel : (1 < v)%Z -> cf_jfixed cfg = false -> forall s t r x stop,
    recycle_t argsortF solve v (equilibrium c) dg cfg x0 dxmax0 pre fuel s = (t, Ok (r, x, stop)) ->
    exists je fn l, table (rc_j s) (rc_npre s) (rc_z s + 1) (rows_in t) je fn l /\ points (fst (fst l)) (rc_j r) /\
      je = a_j (rc_an r) /\ (stop = false -> fltb fn (cf_ftol cfg) = true) /\
      exists D q, bcast2 fsub x x0 = Ok D /\ bcast2 fdiv D (a_dVmax (rc_an r)) = Ok q /\ three q l.
  Proof.
    intros Hv Hjf. induction fuel as [|fuel IH]; intros s t r x stop H; cbn [recycle_t] in H; [discriminate|].
    tsay H t1. cbv zeta in H. tq H xj E1. tq H dj E2. tq H xs E3. ts H [an1 o] tn t2 En. tq H Dx E4. tq H [i1 v1] E5.
    destruct (Nat.ltb_spec (length (no_x o)) 2) as [Hlx|Hlx]; [discriminate|].
    destruct (ranked argsortF Dx (rc_dxmax s) 1) as [i2 v2] eqn:Er2. destruct (if Nat.ltb 2 _ then _ else _) as [i3 v3] eqn:Er3.
    tsay H t3. rewrite Hjf in H. tq H j E6. tq H q E7. tq H valid E8. ts H [[[dx' z'] b'] ch] tc t4 Ec.
    unfold newton_t in En. apply newton_table in En; [|lia].
    destruct En as [(_ & _ & _ & _ & _ & xn & Hp)|(ns & s2 & fv & -> & Hno & Hfn & Hok)]; [discriminate|].
    apply f_ext_j in Hfn as [Hj Hd].
    assert (HD : length Dx = length (no_x o)) by exact (bcast_len _ _ _ _ E4 Hlx).
    assert (Hq : length q = length (no_x o)) by (rewrite (bcast_len _ _ _ _ E7 ltac:(lia)); exact HD).
    assert (H3 : three q ((i1, v1), (i2, v2), (i3, v3))).
    { pose proof (leads_shown argsortF Hsort _ _ _ _ _ E5 E7 ltac:(lia)) as H3. rewrite Hq, Er2, Er3 in H3. exact H3. }
    apply signed_points in E6.
    assert (Hz : z' = rc_z s \/ z' = 0%Z).
    { destruct (cf_stepcontrol cfg); [eapply dxmax_z; exact Ec|]. apply quiet_ok in Ec as [_ Ec]. injection Ec; auto. }
    assert (Hc : rows_in tc = []).
    { apply rowless_rows. replace tc with (fst (tc, Ok (dx', z', b', ch))) by reflexivity. rewrite <- Ec.
      destruct (cf_stepcontrol cfg); [apply dxmax_rowless|apply all_quiet]. }
    rewrite !above_on by lia. rewrite !rows_app, Hc, iters_rows.
    assert (Hrow : forall u, rows_in [LBlank; LTableHead; LTableRule] ++ iters_from (0 + 1) (ns ++ [no_fnorm o]) ++
       rows_in [LTotalHead; LTotal (rc_z s + 1) (no_n o + rc_npre s) (rc_j s) (no_fnorm o) i1 v1 i2 v2 i3 v3] ++ [] ++ u =
       iters (ns ++ [no_fnorm o]) ++ total (rc_z s + 1) (Z.of_nat (S (length ns)) + rc_npre s) (rc_j s) (no_fnorm o) ((i1, v1), (i2, v2), (i3, v3)) :: u).
    { intros u. cbn [rows_in filter app total]. replace (no_n o) with (Z.of_nat (S (length ns))) by lia. reflexivity. }
    rewrite Hrow. clear Hrow.
    destruct (valid && no_success o) eqn:Ev.
    - tq H [an3 ?] Ef. apply quiet_ok in H as [-> H]. injection H as <- <- <-. cbn [rc_j rc_an].
      apply f_ext_j in Ef as [Hj3 Hd3]. cbn [a_dVmax set_dVmax] in Hd3.
      exists (rc_j s), (no_fnorm o), ((i1, v1), (i2, v2), (i3, v3)). split; [constructor|]. split; [exact E6|]. split; [congruence|].
      split; [intros _; apply Hok; now apply andb_prop in Ev|]. exists Dx, q. rewrite Hd3. auto.
    - assert (Hstop : forall o2, exists je fn l, table (rc_j s) (rc_npre s) (rc_z s + 1)
          (iters (ns ++ [no_fnorm o]) ++ [total (rc_z s + 1) (Z.of_nat (S (length ns)) + rc_npre s) (rc_j s) (no_fnorm o) (i1, v1, (i2, v2), (i3, v3))]) je fn l /\
        points (fst (fst l)) (rc_j (Rc (set_dVmax (rc_dxmax s) an1) z' j dx' b' (rc_npre s) o2)) /\
        je = a_j (rc_an (Rc (set_dVmax (rc_dxmax s) an1) z' j dx' b' (rc_npre s) o2)) /\ (true = false -> fltb fn (cf_ftol cfg) = true) /\
        exists D q, bcast2 fsub (no_x o) x0 = Ok D /\ bcast2 fdiv D (a_dVmax (rc_an (Rc (set_dVmax (rc_dxmax s) an1) z' j dx' b' (rc_npre s) o2))) = Ok q /\ three q l).
      { intros o2. cbn [rc_j rc_an a_j a_dVmax set_dVmax]. exists (rc_j s), (no_fnorm o), ((i1, v1), (i2, v2), (i3, v3)).
        split; [constructor|]. split; [exact E6|]. split; [congruence|]. split; [discriminate|]. exists Dx, q. auto. }
      destruct (z' + 1 =? _)%Z.
      { tsay H t5. apply quiet_ok in H as [-> H]. injection H as <- <- <-. apply Hstop. }
      destruct (_ && negb (no_success o) && negb ch).
      { tsay H t5. apply quiet_ok in H as [-> H]. injection H as <- <- <-. apply Hstop. }
      tsay H t5. apply IH in H as (je & fn & l & Ht & Hp & He & Hs & HDq). cbn [rc_j rc_npre rc_z] in Ht.
      exists je, fn, l. split; [|auto]. cbn [rows_in filter app]. eapply tb_again; [| |exact Ht].
      + destruct (no_success o); [right; exact E6|left; reflexivity].
      + lia.
  Qed.

  (** The lines of an increment other than the rows. *)
  Lemma predict_table v g dg cfg x dxmax j an t p : (1 < v)%Z ->
    predict_t argsortF solve v g dg cfg x dxmax j an = (t, Ok p) ->
    exists fn c, t = [LPre 1 0 j fn (fst c) (snd c)] /\ points c (pr_j p) /\ pr_n p = 1%Z.
  Proof.
    intros Hv H. unfold predict_t in H. tq H xj E1. tq H dj E2. cbv zeta in H. ts H [an1 o] tn t2 En.
    assert (Hn : tn = [] /\ no_n o = 1%Z).
    { unfold newton_t in En. cbn [newton_loop_t Z.to_nat Pos.to_nat Pos.iter_op] in En. tq En [s1 Km] G1. tq En [s2 fv] G2. cbv zeta in En.
      tq En x' G3. tq En [s3 fv'] G4. tsay En t3. rewrite above_off by lia. cbn [app].
      destruct (_ && _); apply quiet_ok in En as [-> En]; injection En as <- <-; auto. }
    destruct Hn as [-> Hn]. tq H Dx E3. tq H [i1 v1] E4. tq H j' E5. tsay H t3. apply quiet_ok in H as [-> H]. injection H as <-.
    exists (no_fnorm o), (i1, v1). cbn [app fst snd pr_j pr_n]. rewrite above_on by lia. rewrite Hn. split; [reflexivity|].
    split; [now apply signed_points|reflexivity].
  Qed.

  Lemma increment_table c v dg cfg dxmax0 fuel i s t s' stop : (1 < v)%Z -> cf_jfixed cfg = false ->
    increment_t argsortF solve v (equilibrium c) dg cfg dxmax0 fuel i s = (t, Ok (s', stop)) ->
    exists an part, ps_res s' = ps_res s ++ [(ps_x s', an)] /\ t = LBlank :: part /\
      inc_shows (cf_ftol cfg) (ps_jpre s = true /\ cf_jfixed cfg = false) (ps_x s) (ps_j s) part (ps_x s', an) (ps_j s') /\
      (ps_jpre s' = true -> ps_jpre s = true).
  Proof.
    intros Hv Hjf H. pose proof H as H0. apply increment_text in H0 as (an & out & R1 & _ & _ & _ & _ & _ & _ & _ & R9 & R10).
    destruct (R9 ltac:(lia)) as (part & Ht & (i' & body & Ep & Eb & _)). clear R9. subst part.
    exists an, (LIncrement i' :: body). split; [exact R1|]. split; [exact Ht|]. split; [|exact R10]. exists i', body. 
    unfold increment_t in H. tsay H t1. cbv zeta in H. ts H [s1 st1] tb t2 E. tsay H t3. apply quiet_ok in H as [-> H]. injection H as <- <-.
    rewrite app_nil_r in Ht. rewrite !above_on in Ht by lia. cbn [app] in Ht. injection Ht as <- Ht. subst body.
    assert (Hrow : rows_in (LTableHead :: LTableRule :: tb ++ [LBlank; LFinal (last (ps_x s1) f0)]) = rows_in tb).
    { cbn [rows_in filter]. change (rows_in (tb ++ [LBlank; LFinal (last (ps_x s1) f0)]) = rows_in tb). rewrite rows_app. cbn. apply app_nil_r. }
    rewrite Hrow. clear Hrow.
    assert (Hmsg : forall e, In e (messages_in tb) -> In e (messages_in (LTableHead :: LTableRule :: tb ++ [LBlank; LFinal (last (ps_x s1) f0)]))).
    { intros e He. change (In e (messages_in (tb ++ [LBlank; LFinal (last (ps_x s1) f0)]))). rewrite messages_app. apply in_or_app. now left. }
    rewrite Hjf in E. rewrite andb_true_r in E. destruct (ps_jpre s) eqn:Ej.
    - ts E p tp t4 Ep. apply predict_table in Ep as (fnp & cp & -> & Hcp & Hnp); [|exact Hv]. destruct (pr_success p) eqn:Eps.
      + apply quiet_ok in E as [-> E]. injection E as <- <-. cbn [ps_x ps_j ps_res] in *.
        exists None. split; [reflexivity|]. split; [exact Eb|]. split; [constructor; exact Hcp|]. cbn [fst]. auto.
      + ts E [[r x] st2] tr t5 Er. apply quiet_ok in E as [-> E]. injection E as <- <-. rewrite app_nil_r in *. cbn [ps_x ps_j ps_res] in *.
        apply app_inj_tail in R1 as [_ R1]. injection R1 as <-. pose proof Er as Er'.
        apply recycle_table in Er; [|assumption..]. destruct Er as (je & fn & l & Htb & Hpt & Hje & Hs & D & q & HD & Hq & H3).
        cbn [rc_j rc_npre rc_z] in Htb. rewrite Hnp in Htb. exists (Some (je, fn, l)). split; [reflexivity|]. split; [exact Eb|].
        split; [rewrite rows_app; cbn [rows_in filter app]; exact (it_pre _ _ _ _ _ _ _ _ _ Hcp Htb Hpt)|]. cbn [fst snd a_j a_dVmax set_lpf set_Ured set_Vred].
        split; [exact Hje|]. split; [|exists D, q; auto]. intros He. apply Hs. apply recycle_text in Er' as (_ & _ & R3).
        destruct st2; [|reflexivity]. exfalso. destruct (proj1 R3 eq_refl) as (e & Hin & Hl). apply (He e); [|exact Hl].
        apply Hmsg. rewrite messages_app. apply in_or_app. now right.
    - ts E [[r x] st2] tr t5 Er. apply quiet_ok in E as [-> E]. injection E as <- <-. rewrite app_nil_r in *. cbn [ps_x ps_j ps_res] in *.
      apply app_inj_tail in R1 as [_ R1]. injection R1 as <-. pose proof Er as Er'.
      apply recycle_table in Er; [|assumption..]. destruct Er as (je & fn & l & Htb & Hpt & Hje & Hs & D & q & HD & Hq & H3).
      cbn [rc_j rc_npre rc_z] in Htb. exists (Some (je, fn, l)). split; [reflexivity|]. split; [exact Eb|].
      split; [exact (it_none _ _ _ _ _ _ Htb Hpt)|]. cbn [fst snd a_j a_dVmax set_lpf set_Ured set_Vred].
      split; [exact Hje|]. split; [|exists D, q; auto]. intros He. apply Hs. apply recycle_text in Er' as (_ & _ & R3).
      destruct st2; [|reflexivity]. exfalso. destruct (proj1 R3 eq_refl) as (e & Hin & Hl). apply (He e); [|exact Hl].
      apply Hmsg. exact Hin.
  Qed.

  (** Lines that may follow an increment. *)
  Definition after (l : L) : Prop := rowless l /\ calm l.
  Lemma after_facts (t : list L) : Forall after t ->
    increments_in t = [] /\ rows_in t = [] /\ (forall e, In e (messages_in t) -> ~ error_line e).
  Proof.
    intros H. assert (H1 : Forall calm t) by (eapply Forall_impl; [|exact H]; now intros l []).
    destruct (calm_facts _ H1) as (C1 & _ & _ & C2). split; [exact C1|]. split; [|exact C2].
    apply rowless_rows. eapply Forall_impl; [|exact H]. now intros l [].
  Qed.
  Lemma inc_more ftol sk x0 j p rec j' u : inc_shows ftol sk x0 j p rec j' -> Forall after u -> inc_shows ftol sk x0 j (p ++ u) rec j'.
  Proof.
    intros (i & body & o & -> & Hi & Ht & Ho) Hu. destruct (after_facts _ Hu) as (U1 & U2 & U3).
    exists i, (body ++ u), o. rewrite increments_app, rows_app, Hi, U1, U2, (app_nil_r (rows_in body)). split; [reflexivity|]. split; [reflexivity|]. split; [exact Ht|].
    destruct o as [[[je fn] l]|]; [|exact Ho]. destruct Ho as (O1 & O2 & O3). split; [exact O1|]. split; [|exact O3].
    intros He. apply O2. intros e Hin. apply He. rewrite messages_app. apply in_or_app. now left.
  Qed.
  Lemma path_more ftol sk x0 j ps recs : path_shows ftol sk x0 j ps recs -> forall u, Forall after u -> ps <> [] ->
    exists ps', concat ps' = concat ps ++ u /\ path_shows ftol sk x0 j ps' recs.
  Proof.
    induction 1 as [x0 j|x0 j part rec j' parts recs Hi Hp IH]; intros u Hu Hn; [congruence|]. destruct parts as [|p2 parts].
    - inversion Hp; subst. exists [part ++ u]. cbn. rewrite !app_nil_r. split; [reflexivity|]. econstructor; [apply inc_more; eassumption|constructor].
    - destruct (IH u Hu ltac:(discriminate)) as (ps' & E & Hp'). exists (part :: ps'). cbn [concat] in *. rewrite E, <- !app_assoc.
      split; [reflexivity|]. econstructor; eassumption.
  Qed.
  (** A text of a path with lines around it. *)
  Definition told_path ftol sk x0 j (t : list L) recs : Prop :=
    exists head parts, t = head ++ concat parts /\ Forall after head /\ path_shows ftol sk x0 j parts recs.
  Lemma told_more ftol sk x0 j t recs u : told_path ftol sk x0 j t recs -> Forall after u -> told_path ftol sk x0 j (t ++ u) recs.
  Proof.
    intros (head & parts & -> & Hh & Hp) Hu. destruct parts as [|p ps].
    - inversion Hp; subst. exists (head ++ u), []. cbn. rewrite !app_nil_r. split; [reflexivity|]. split; [now apply Forall_app|constructor].
    - destruct (path_more _ _ _ _ _ _ Hp u Hu ltac:(discriminate)) as (ps' & E & Hp'). exists head, ps'. rewrite E, app_assoc. auto.
  Qed.
  Lemma told_before ftol sk x0 j t recs u : told_path ftol sk x0 j t recs -> Forall after u -> told_path ftol sk x0 j (u ++ t) recs.
  Proof.
    intros (head & parts & -> & Hh & Hp) Hu. exists (u ++ head), parts. rewrite app_assoc. split; [reflexivity|]. split; [now apply Forall_app|exact Hp].
  Qed.
  Lemma inc_weaken ftol (sk sk' : Prop) x0 j p rec j' : (sk -> sk') -> inc_shows ftol sk x0 j p rec j' -> inc_shows ftol sk' x0 j p rec j'.
  Proof.
    intros Hs (i & body & o & E & H1 & H2 & H3). exists i, body, o. split; [exact E|]. split; [exact H1|]. split; [exact H2|].
    destruct o as [[[? ?] ?]|]; [exact H3|]. destruct H3. auto.
  Qed.

  Lemma increments_table c v dg cfg dxmax0 fuel (sk : Prop) k : (1 < v)%Z -> cf_jfixed cfg = false -> forall i s t s',
    increments_t argsortF solve v (equilibrium c) dg cfg dxmax0 fuel k i s = (t, Ok s') ->
    (ps_jpre s = true /\ cf_jfixed cfg = false -> sk) ->
    exists recs, ps_res s' = ps_res s ++ recs /\ told_path (cf_ftol cfg) sk (ps_x s) (ps_j s) t recs.
  Proof.
    intros Hv Hjf. induction k as [|k IH]; intros i s t s' H Hsk; cbn [increments_t] in H.
    { apply quiet_ok in H as [-> H]. injection H as <-. exists []. rewrite app_nil_r. split; [reflexivity|]. exists [], []. repeat constructor. }
    ts H [s1 stop] t1 t2 E. apply increment_table in E as (an & part & R1 & -> & R2 & R3); [|assumption..].
    apply (inc_weaken _ _ _ _ _ _ _ _ Hsk) in R2.
    assert (Hone : forall u, Forall after u -> told_path (cf_ftol cfg) sk (ps_x s) (ps_j s) (LBlank :: part ++ u) [(ps_x s1, an)]).
    { intros u Hu. exists [LBlank], [part ++ u]. cbn. rewrite !app_nil_r. split; [reflexivity|]. split; [repeat constructor|].
      econstructor; [apply inc_more; eassumption|constructor]. }
    destruct stop.
    { apply quiet_ok in H as [-> H]. injection H as <-. exists [(ps_x s1, an)]. split; [exact R1|]. apply (Hone []). constructor. }
    tq H lim E2. destruct lim.
    - tsay H t3. apply quiet_ok in H as [-> H]. injection H as <-. cbn [ps_res]. exists [(ps_x s1, an)]. split; [exact R1|].
      apply Hone. repeat constructor.
    - apply IH in H as (recs & I1 & (head & parts & -> & Hh & Hp)); [|intros [G1 G2]; auto]. exists ((ps_x s1, an) :: recs).
      split; [rewrite I1, R1, <- app_assoc; reflexivity|]. exists [LBlank], ((part ++ head) :: parts). cbn [concat app]. rewrite <- app_assoc.
      split; [reflexivity|]. split; [repeat constructor|]. econstructor; [apply inc_more; eassumption|exact Hp].
  Qed.

  Lemma pathfollow_table c v dg Ured an d jpre cfg fuel t s : (1 < v)%Z ->
    pathfollow_t argsortF solve v (equilibrium c) dg Ured an d None jpre cfg fuel = (t, Ok s) ->
    exists recs, ps_res s = (Ured ++ [f0], an) :: recs /\
      told_path (cf_ftol cfg) (jpre = true /\ cf_jfixed cfg = false) (Ured ++ [f0]) (Z.of_nat (S (length Ured))) t recs.
  Proof.
    intros Hv H. unfold pathfollow_t in H. cbv zeta in H. destruct (cf_jfixed cfg) eqn:Hjf; cbn [negb] in H.
    - destruct (_ <=? 0)%Z; [|discriminate]. apply quiet_ok in H as [-> H]. injection H as <-. exists []. split; [reflexivity|].
      exists [], []. repeat constructor.
    - eapply (increments_table c v dg cfg _ fuel (jpre = true /\ cf_jfixed cfg = false) _ Hv Hjf) in H; [|auto].
      destruct H as (recs & R1 & R2). cbn [ps_res ps_x ps_j app] in *. exists recs. split; [exact R1|].
      rewrite app_length, Nat.add_1_r in R2. rewrite Hjf in R2. exact R2.
  Qed.
End Path.
