(** * Every state of a session can be plotted (C37, C43) *)
From Coq Require Import List ZArith Bool Arith String Sorting.Sorted Permutation Lia.
Import ListNotations.
From Verif Require Import Num Vec Handlers Material Analysis Truss Equil Solver Run Plot SpecMech SpecBuild
  SpecState SpecRun SpecPlot ListFacts BuildFacts BuildProps ReachFacts SessionFacts RecFacts RunFacts PlotFacts SceneFacts NumFix ExRun EditFacts PropPlot.

Section Show.
  Context {F : Type} `{NF : Num F}.
  Variables (argsortZ : list Z -> list nat) (argsortF : list F -> list nat) (solve : list (list F) -> list F -> list F).

  (** The load recorded in [a] fits to a table of [n] rows and [w] columns. *)
  Definition showable (n w : nat) (a : analysis F) : Prop :=
    (exists s, a_step a = (1 + Z.of_nat s)%Z /\ 3 * (s + 1) <= w) /\
    List.length (a_fconst a) = n /\ (forall r, In r (a_fconst a) -> List.length r = 3).

  Lemma start_showable rows lpfs k prev an w :
    step_starts rows lpfs k prev an -> (forall r, In r rows -> List.length r = w) -> 3 * (k + 1) <= w ->
    showable (List.length rows) w an.
  Proof.
    intros (E1 & (L & Hs) & _) Hr Hw. split; [exists k; auto|]. split; [exact L|].
    intros r Hin. apply In_nth_error in Hin. destruct Hin as (i & Hi).
    assert (Hlt : i < List.length rows) by (rewrite <- L; apply nth_error_Some; congruence).
    destruct (nth_error rows i) as [row|] eqn:E; [|apply nth_error_None in E; lia].
    destruct (Hs i row E) as (fr & Hf & Hl & _). assert (r = fr) by congruence. subst fr.
    rewrite Hl, firstn_length, skipn_length, (Hr row) by (eapply nth_error_In; eauto). lia.
  Qed.

  Lemma recs_showable c st fuel k lg n w :
    step_ran argsortF solve c st fuel k lg -> showable n w (lg_start lg) ->
    forall x a, In (x, a) (lg_recs lg) -> showable n w a.
  Proof.
    intros H Hs. apply step_any in H. destruct H as (incs & xl & H).
    eapply (along_impl _ (fun _ _ _ _ => True) (fun _ a => showable n w a)) in H.
    - apply H.
    - exact Hs.
    - intros x0 a0 x a (A & B & C) Hk. apply kany_same in Hk. destruct Hk as (Q1 & _ & _ & _ & Q5 & _).
      split; [|exact Logic.I]. split; [rewrite Q1; exact A|]. rewrite Q5. auto.
  Qed.

  Lemma steps_showable c st rows fuel w : (forall r, In r rows -> List.length r = w) -> forall logs k prev lpfs pl,
    steps_from argsortF solve c st rows fuel k prev lpfs pl logs -> 3 * (k + List.length logs) <= w ->
    forall a, In a (List.concat (map lg_results logs)) -> showable (List.length rows) w a.
  Proof.
    intros Hr. induction logs as [|lg logs IH]; intros k prev lpfs pl H Hw a Ha; cbn in *; [contradiction|].
    destruct H as (Hs & Hran & Hrest). apply in_app_iff in Ha. destruct Ha as [Ha|Ha].
    - unfold lg_results in Ha. apply in_map_iff in Ha. destruct Ha as ([x a'] & <- & Hin).
      eapply recs_showable; [exact Hran| |exact Hin]. eapply start_showable; eauto. lia.
    - eapply IH; [exact Hrest|lia|exact Ha].
  Qed.

  (** The first result of build. *)
  Lemma build_first m mb : build argsortZ m = Ok mb ->
    exists u r0, m_built mb = Some u /\ u_R u = [r0] /\ a_step r0 = 1%Z /\
      a_fconst r0 = repeat (repeat f0 3) (u_nnodes u).
  Proof.
    unfold build. destruct (m_nodes m); [|discriminate]. destruct (m_elems m); [|discriminate]. cbv zeta. intros H.
    apply bind_ok in H. destruct H as (on & _ & H). destruct on; [|discriminate].
    apply bind_ok in H. destruct H as (ob & _ & H). apply bind_ok in H. destruct H as (oe & _ & H).
    destruct ob; [|discriminate]. destruct oe; [|discriminate].
    apply bind_ok in H. destruct H as (c1 & _ & H). apply bind_ok in H. destruct H as (c2 & _ & H).
    destruct (negb c2); [discriminate|]. apply bind_ok in H. destruct H as (D0 & _ & H).
    apply bind_ok in H. destruct H as (D1 & _ & H). apply bind_ok in H. destruct H as (an & Han & H).
    apply ok_inj in H. subst mb. cbn [m_built]. do 2 eexists. split; [reflexivity|]. cbn. split; [reflexivity|].
    split; [|reflexivity]. unfold analysis_build in Han. apply bind_ok in Han. destruct Han as (ur & _ & Han).
    apply ok_inj in Han. subst an. reflexivity.
  Qed.

  Lemma session_showable m ns ms bs fs m1 fh0 :
    argsort_ok argsortZ -> described m ns ms bs fs -> m_forces m = Some fh0 -> 3 <= e_width fh0 ->
    session argsortF solve argsortZ (fun st => 3 * Z.to_nat (s_nsteps st) <= e_width fh0) m m1 ->
    exists fh u, m_forces m1 = Some fh /\ m_built m1 = Some u /\ List.length (e_rows fh) = List.length ns /\
      (forall r, In r (e_rows fh) -> List.length r = e_width fh0) /\
      forall a, In a (u_R u) -> showable (List.length ns) (e_width fh0) a.
  Proof.
    intros HA Hd Ef Hw HS. induction HS as [m' Hb|m1 fuel m2 out HS IH HP H|m1 st HS IH E].
    - destruct (build_reached _ _ _ _ _ _ _ HA Hd Hb)
        as (nh & eh & fh & u & ns' & _ & _ & Ef' & Eu & _ & Hp & Hwi & Hfs & _ & _ & _ & Hnn & _).
      rewrite Ef' in Hfs. destruct Hfs as (_ & Er & Hall). exists fh, u.
      split; [exact Ef'|]. split; [exact Eu|].
      split. { rewrite Er. unfold rows_for. rewrite !map_length. now apply Permutation_length. }
      split. { rewrite Forall_forall in Hall. rewrite (Hwi _ Ef). exact Hall. }
      destruct (build_first _ _ Hb) as (u' & r0 & Eu' & ER & Es & Efc). assert (u' = u) by congruence. subst u'.
      rewrite ER. intros a [<-|[]]. split; [exists 0; split; [rewrite Es; reflexivity|lia]|].
      rewrite Efc, repeat_length. split; [lia|]. intros r Hr. apply repeat_spec in Hr. subst r. apply repeat_length.
    - destruct IH as (fh & u & Ef1 & Eu & Lr & Hr & HR).
      destruct (sound_session argsortZ argsortF solve _ _ _ _ _ _ _ HA Hd HS) as (mb & Hb & Hso).
      destruct (run_logs argsortF solve _ _ _ _ _ _ Hso H)
        as (nh & eh & ub & u1 & fh1 & r0 & rest & u' & _ & _ & _ & Eu1 & Ef2 & ER & Eu' & Em & _ & _ & HH). cbv zeta in HH.
      assert (u1 = u) by congruence. assert (fh1 = fh) by congruence. subst u1 fh1.
      exists fh, u'. subst m2. cbn [m_forces]. split; [exact Ef1|]. split; [exact Eu'|]. split; [exact Lr|]. split; [exact Hr|].
      assert (H0 : In r0 (u_R u)) by (rewrite ER; now left).
      destruct (s_nsteps (m_set m1) <=? 0)%Z eqn:L.
      + destruct HH as (-> & _). intros a [<-|Ha]; auto.
      + destruct HH as (logs & Hl & Hst & -> & _). intros a [<-|Ha]; [auto|].
        apply in_app_iff in Ha. destruct Ha as [Ha|Ha].
        * apply HR. clear - Ha. induction (u_R u) as [|y l IH]; [contradiction|].
          cbn [removelast] in Ha. destruct l; [contradiction|]. destruct Ha as [<-|Ha]; [now left|right; now apply IH].
        * rewrite <- Lr. eapply steps_showable; [exact Hr|exact Hst| |exact Ha]. rewrite Hl. exact HP.
    - destruct IH as (fh & u & Ef1 & Eu & Lr & Hr & HR). exists fh, u. cbn [with_settings m_forces m_built]. auto.
  Qed.
End Show.

Lemma pymax_total {F} `{Num F} (l : list F) : l <> [] -> exists x, pymax l = Ok x.
Proof. destruct l; [congruence|]. intros _. eexists. reflexivity. Qed.

Lemma contour_total {F} `{Num F} (r : analysis F) c cbar :
  a_stretch r <> [] -> a_force r <> [] -> a_stress r <> [] ->
  (forall name lim, c = Some (CTuple name lim) -> In name ["stretch"; "force"; "stress"]%string) ->
  exists con, contour_of r c cbar = Ok con.
Proof.
  intros H1 H2 H3 Hc. destruct c as [[name|name lim]|]; cbn; [| |eauto].
  - unfold contour_data.
    assert (M : forall g (l : list F), l <> [] -> exists m, pymax (map g l) = Ok m).
    { intros g l Hl. apply pymax_total. destruct l; [congruence|discriminate]. }
    destruct (String.eqb name "stretch") eqn:E1; [|destruct (String.eqb name "force") eqn:E2; [|destruct (String.eqb name "stress") eqn:E3; [|eauto]]];
      destruct cbar; cbn [bind]; eauto.
    + destruct (M (fun s => fabs (fsub s f1)) _ H1) as (x & ->). cbn. eauto.
    + destruct (M fabs _ H2) as (x & ->). cbn. eauto.
    + destruct (M fabs _ H3) as (x & ->). cbn. eauto.
  - specialize (Hc name lim eq_refl). unfold contour_data.
    destruct Hc as [<-|[<-|[<-|[]]]]; cbn; eauto.
Qed.

(** After build and any runs with at least three load components per step, every
    recorded increment of a truss with nodes 1, ..., n can be plotted in every view
    and with every contour. *)
Theorem C37_total : forall F (NF : Num F) argsortZ argsortF solve m ns ms bs fs fh0 m1 u v c scale cbar inc,
  argsort_ok argsortZ -> described m ns ms bs fs -> m_forces m = Some fh0 -> 3 <= e_width fh0 -> ms <> [] ->
  session argsortF solve argsortZ (fun st => 3 * Z.to_nat (s_nsteps st) <= e_width fh0) m m1 ->
  Permutation (map fst ns) (map Z.of_nat (seq 1 (List.length ns))) ->
  m_built m1 = Some u -> (- Z.of_nat (List.length (u_R u)) <= inc < Z.of_nat (List.length (u_R u)))%Z ->
  v <> VOther -> (forall name lim, c = Some (CTuple name lim) -> In name ["stretch"; "force"; "stress"]%string) ->
  exists sc, plot_model m1 v c scale cbar inc = Ok sc.
Proof.
  intros F NF argsortZ argsortF solve m ns ms bs fs fh0 m1 u v c scale cbar inc HA Hd Ef Hw Hms HS Hperm Eu Hinc Hv Hc.
  destruct (session_showable argsortZ argsortF solve _ _ _ _ _ _ _ HA Hd Ef Hw HS) as (fh & u' & Ef1 & Eu' & Lr & Hr & HR).
  assert (u' = u) by congruence. subst u'.
  destruct (sound_session argsortZ argsortF solve _ _ _ _ _ _ _ HA Hd HS) as (mb & Hb & Hso).
  unfold sound in Hso. destruct Hso as (En & Ee & _ & _ & _ & nh & eh & ub & u1 & Enb & Eeb & _ & Eu1 & _ & _ & Hcx).
  assert (u1 = u) by congruence. subst u1. cbv zeta in Hcx. destruct Hcx as (_ & Ht & _ & _ & _ & _ & HRe).
  destruct (build_reached _ _ _ _ _ _ _ HA Hd Hb) as (nh' & eh' & _ & _ & ns' & En' & Ee' & _ & _ & Hns & Hp & _).
  assert (nh' = nh) by congruence. assert (eh' = eh) by congruence. subst nh' eh'.
  rewrite En' in Hns. destruct Hns as [Hl Hco].
  assert (Ln : List.length (n_labels nh) = List.length ns) by (rewrite Hl, map_length; now apply Permutation_length).
  assert (Lc : List.length (n_coords nh) = List.length ns) by (rewrite Hco, map_length; now apply Permutation_length).
  destruct Ht as (_ & _ & Hlm & _ & Hmem).
  set (i := if (inc <? 0)%Z then (Z.of_nat (List.length (u_R u)) + inc)%Z else inc).
  assert (Hi : (0 <= i < Z.of_nat (List.length (u_R u)))%Z) by (unfold i; destruct (Z.ltb_spec inc 0); lia).
  destruct (nth_error (u_R u) (Z.to_nat i)) as [r|] eqn:Er; [|apply nth_error_None in Er; lia].
  assert (Hin : In r (u_R u)) by (eapply nth_error_In; eauto).
  assert (Hget : py_get (u_R u) i = Ok r) by (apply py_get_nth; exists (Z.to_nat i); split; [apply py_pos_nonneg; lia|exact Er]).
  unfold plot_model, with_results. rewrite Eu, En, Enb, Ee, Eeb, Ef1. unfold p_model. cbv zeta. fold i.
  rewrite Hget. cbn [bind].
  destruct (HRe r Hin) as [[Hsz _] _]. destruct Hsz as (LU & _ & _ & _ & _ & Lst & Lss & Lfo & _).
  cbn [ctx_of c_labels c_elems] in LU, Hlm, Hmem.
  assert (NE : forall l : list F, List.length l = List.length ms -> l <> []).
  { intros l El ->. destruct ms; [congruence|discriminate El]. }
  (* contour *)
  assert (Hcon : exists con, contour_of r (if (i =? 0)%Z then None else c) cbar = Ok con).
  { destruct (i =? 0)%Z; [eexists; reflexivity|]. apply contour_total; auto. }
  destruct Hcon as (con & Econ). rewrite Econ. cbn [bind].
  (* loads *)
  destruct (HR r Hin) as ((s & Es & Hs) & Lf & Hf3).
  set (lpf := if (i =? 0)%Z then f1 else a_lpf r).
  assert (Hf : exists f, total_load (e_rows fh) (a_fconst r) lpf (a_step r) = Ok f).
  { unfold total_load. cbv zeta. rewrite map_length.
    replace (List.length (a_fconst r)) with (List.length (e_rows fh)) by lia. rewrite Nat.eqb_refl. cbn [andb].
    assert (forallb (fun q => Nat.eqb (List.length q) 3) (a_fconst r) = true) as ->.
    { apply forallb_forall. intros q Hq. apply Nat.eqb_eq. auto. }
    cbn [andb].
    assert (forallb (fun q => Nat.eqb (List.length q) 3)
      (map (fun q => firstn 3 (skipn (3 * Z.to_nat (a_step r - 1)) q)) (e_rows fh)) = true) as ->.
    { apply forallb_forall. intros q Hq. apply in_map_iff in Hq. destruct Hq as (row & <- & Hrow).
      apply Nat.eqb_eq. rewrite firstn_length, skipn_length, (Hr _ Hrow), Es.
      replace (Z.to_nat (1 + Z.of_nat s - 1)) with s by lia. lia. }
    eexists. reflexivity. }
  destruct Hf as (f & Ef2). rewrite Ef2. cbn [bind].
  (* coordinates *)
  assert (EX : add_rows (n_coords nh) (a_U r) = Ok (map2 vadd (n_coords nh) (a_U r))).
  { unfold add_rows. replace (List.length (a_U r)) with (List.length (n_coords nh)) by lia. now rewrite Nat.eqb_refl. }
  rewrite EX. cbn [bind].
  destruct Hlm as (_ & Hconn & _).
  assert (Lconn : List.length (el_conns eh) = List.length ms) by (rewrite Hconn, map_length; reflexivity).
  (* members *)
  destruct (draw_members_total v (el_conns eh) (map2 vadd (n_coords nh) (a_U r)) (option_map fst con)) as (dm & Edm).
  - rewrite map2_length. rewrite LU, Lc, Ln, Nat.min_id. intros na ne Hne. rewrite Hconn in Hne. apply in_map_iff in Hne.
    destruct Hne as (b & Eb & Hb'). injection Eb as <- <-. destruct (Hmem b Hb') as (A & B & _).
    assert (G : forall l, In l (n_labels nh) -> (1 <= l <= Z.of_nat (List.length ns))%Z).
    { intros l Hln. rewrite Hl in Hln. apply (Permutation_in _ (Permutation_map fst Hp)) in Hln.
      apply (Permutation_in _ Hperm) in Hln. apply in_map_iff in Hln. destruct Hln as (q & <- & Hq).
      apply in_seq in Hq. lia. }
    split; apply G; assumption.
  - intros data Edata. destruct con as [[data' lim]|]; [|discriminate]. cbn in Edata. injection Edata as ->.
    apply contour_of_spec in Econ. destruct (i =? 0)%Z; [discriminate|].
    assert (N : forall name, named_values name r data -> List.length data = List.length (el_conns eh)).
    { intros name Hn. rewrite Lconn. unfold named_values in Hn.
      repeat match type of Hn with _ \/ _ => destruct Hn as [Hn|Hn] end; destruct Hn as [_ ->]; assumption. }
    destruct c as [[name|name lim']|]; [| |discriminate].
    + destruct Econ as [[? _]|(l & lim' & El & Hn & _)]; [discriminate|]. injection El as -> ->. eauto.
    + destruct Econ as (l & El & Hn). injection El as -> _. eauto.
  - rewrite Edm. cbn [bind].
    assert (El : el_conns eh <> []) by (intros E; rewrite E in Lconn; destruct ms; [congruence|discriminate Lconn]).
    destruct v; try congruence; destruct con as [[data lim]|]; destruct (el_conns eh); try congruence; eexists; reflexivity.
Qed.
Print Assumptions C37_total.

(** The sample truss of PropPlot.v meets the hypotheses. *)
Definition xp_loads : forceH fix_ := match m_forces xp_model with Some fh => fh | None => ForceH [] 0 [] end.

Example shows_meet : exists m u,
  argsort_ok argsort_ins /\ m_forces xp_model = Some xp_loads /\ 3 <= e_width xp_loads /\ xp_ms <> [] /\
  session argsort_fx gauss argsort_ins (fun st => 3 * Z.to_nat (s_nsteps st) <= e_width xp_loads) xp_model m /\
  Permutation (map fst xp_ns) (map Z.of_nat (seq 1 (List.length xp_ns))) /\
  m_built m = Some u /\ 4 <= List.length (u_R u).
Proof.
  destruct (split_run _ _ _ xp_runs)
    as (m1 & m & out & Eb & Er & H).
  unfold xp_test in H.
  destruct (m_nodes m) as [nh|]; [|discriminate]. destruct (m_elems m) as [eh|]; [|discriminate].
  destruct (m_forces m) as [fh|]; [|discriminate]. destruct (m_built m) as [u|] eqn:Eu; [|discriminate].
  repeat (apply andb_true_iff in H; destruct H as [H ?]).
  repeat match goal with X : Nat.leb _ _ = true |- _ => apply Nat.leb_le in X end.
  exists m, u. split; [exact argsort_ins_ok|]. split; [reflexivity|]. split; [cbn; lia|]. split; [discriminate|].
  split. { eapply s_run; [apply s_build; exact Eb| |exact Er].
    replace (s_nsteps (m_set m1)) with 2%Z; [cbn; lia|].
    assert (X : s_nsteps (m_set m1) = s_nsteps (m_set xp_model)); [|rewrite X; reflexivity].
    pose proof (f_equal (fun r => match r with Ok x => s_nsteps (m_set x) | _ => 0%Z end) Eb) as X. cbn beta iota in X.
    rewrite <- X. vm_compute. reflexivity. }
  split. { cbn. apply perm_skip. apply perm_swap. }
  split; [exact Eu|assumption].
Qed.
