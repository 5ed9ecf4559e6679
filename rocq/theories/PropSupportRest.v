(** * C76: a truss with loads on its supports only stays at rest *)
From Coq Require Import List ZArith Bool Arith Lia Reals Lra Permutation.
Import ListNotations.
From Verif Require Import Num NumR NumFix Vec Handlers Material Analysis Truss Equil Solver Run ListFacts SpecMech SpecMechR SpecBuild SpecState SpecRun SpecSame SpecForm SpecNewton SpecSmall
  EditFacts BuildFacts BuildProps SmallFacts SmallRun PropNewton SpecValid MirrorGauss PropTotal PropSmall RunFacts SessionFacts SpecUnloaded UnloadedRun PropUnloaded PropDefault SpecSupportLoad SupportLoadRun PropSupportLoad SpecSupportRest.
Local Open Scope R_scope.

(** The load rows with zeros in place of all loads. *)
Definition no_load_rows (w : nat) (fs : list (Z * list R)) : list (Z * list R) := map (fun p => (fst p, repeat 0 w)) fs.

Lemma no_load_row w fs l : row_for (no_load_rows w fs) (repeat 0 w) l = repeat 0 w.
Proof. induction fs as [|[k r] fs IH]; [reflexivity|]. cbn. destruct (Z.eqb l k); [reflexivity|exact IH]. Qed.

Lemma nth_zeros w k : nth k (repeat 0 w) 0 = 0.
Proof. revert k. induction w; intros [|k]; cbn; auto. Qed.

Lemma play_session argsortZ argsortF solve n w m acts : Forall (in_load_control n w) acts -> forall m1 m2 out,
  session argsortF solve argsortZ (load_control n w) m m1 -> load_control n w (m_set m1) -> play argsortF solve acts m1 = Ok (m2, out) ->
  session argsortF solve argsortZ (load_control n w) m m2.
Proof.
  induction 1 as [|act acts Ha _ IH]; intros m1 m2 out HS Hc H.
  - cbn in H. injection H as <- <-. exact HS.
  - destruct act as [fuel|st]; cbn [play] in H.
    + destruct (run argsortF solve m1 fuel) as [[m1' o]| |] eqn:E; [|discriminate H|discriminate H]. cbn [bind] in H.
      destruct (play argsortF solve acts m1') as [[m2' o2]| |] eqn:E2; [|discriminate H|discriminate H]. cbn [bind] in H. injection H as <- <-.
      destruct (run_ok _ _ _ _ _ _ E) as (u0 & nh & eh & fh & r0 & rest & u' & _ & _ & _ & _ & _ & Em & _).
      apply (IH m1' m2' o2); [eapply s_run; [exact HS|exact Hc|exact E]|rewrite Em; exact Hc|exact E2].
    + apply (IH (with_settings (with_nstatev (s_nstatev (m_set m1)) st) m1) m2 out); [apply s_settings; [exact HS|reflexivity]|exact Ha|exact H].
Qed.

(** The truss of C76_at_rest, now with arbitrary loads on supported components and none
    on free ones. *)
Theorem C76_supported : forall argsortZ argsortF solve m ns ms bs fs mb ub fh acts m1 out u,
  argsort_ok argsortZ -> described m ns ms bs fs -> (forall b, In b ms -> elastic_at_first b /\ 0 < EA b) ->
  (forall b p q, In b ms -> In (mb_a b, p) ns -> In (mb_b b, q) ns -> p <> q) -> rigid ns ms bs -> bs <> [] ->
  m_forces m = Some fh -> free_of_load (e_width fh) ns bs fs ->
  build argsortZ m = Ok mb -> m_built mb = Some ub -> solves (S (u_ndof1 ub)) solve ->
  load_control (S (u_ndof1 ub)) (e_width fh) (m_set m) -> Forall (in_load_control (S (u_ndof1 ub)) (e_width fh)) acts ->
  play argsortF solve acts mb = Ok (m1, out) -> m_built m1 = Some u ->
  forall a, In a (u_R u) -> at_ease (length ns) (length ms) a.
Proof.
  intros argsortZ argsortF solve m ns ms bs fs mb ub fh acts m1 out u HA Hd Hel Hax Hrig Hbs Ef Hfree Hb Eu Hsol Hlc Hacts HP Eu1.
  set (w := e_width fh) in *. set (fs0 := no_load_rows w fs).
  set (fh0 := ForceH (map fst fs0) w (map snd fs0)).
  set (m0 := Model (m_nodes m) (m_elems m) (m_bounds m) (Some fh0) (m_set m) None).
  assert (Hfst : map fst fs0 = map fst fs) by (unfold fs0, no_load_rows; rewrite map_map; reflexivity).
  pose proof Hd as (Dn & Db & Df & De & D2 & Dnd & Dml & D3 & Dmem).
  assert (Df0 : forces_are (m_forces m0) fs0).
  { cbn. split; [reflexivity|]. split; [reflexivity|]. apply Forall_forall. intros r Hr. apply in_map_iff in Hr. destruct Hr as ([l r'] & <- & Hin).
    unfold fs0, no_load_rows in Hin. apply in_map_iff in Hin. destruct Hin as (p & E & _). injection E as _ <-. apply repeat_length. }
  assert (Hd0 : described m0 ns ms bs fs0).
  { split; [exact Dn|]. split; [exact Db|]. split; [exact Df0|]. split; [exact De|]. split; [exact D2|]. split; [exact Dnd|]. split; [exact Dml|]. split; [exact D3|exact Dmem]. }
  destruct (build_tables _ _ _ _ _ _ HA Dn Db Df Dnd D2 Hb) as (Mb & Mf & s1 & w1 & _).
  assert (Mf0 : matches ns fs0) by (unfold matches; rewrite Hfst; exact Mf).
  destruct De as (eh & De & _).
  destruct (build_total argsortZ m0 ns bs fs0 HA Dn Db Df0 Dnd D2) as [mb0 Hb0]; [cbn; rewrite De; discriminate|discriminate|right; exact Hbs|exact D3|exact Mb|exact Mf0|].
  assert (Hsame : same_on_free w ns bs fs fs0).
  { intros l q s Hl Hq Hf. change (@f0 R _) with 0. unfold fs0. rewrite no_load_row. rewrite (Hfree l q s Hl Hq Hf). apply nth_zeros. }
  assert (Hcols : forall st, load_control (S (u_ndof1 ub)) w st -> enough_columns w st) by (intros st (_ & _ & H); exact H).
  assert (Hen : Forall (enough_for w) acts).
  { eapply Forall_impl; [|exact Hacts]. intros [fuel|st] H; [exact I|exact (Hcols st H)]. }
  destruct (build_as argsortZ m m0 ns ms bs fs fs0 fh fh0 mb mb0 HA Hd Hd0 eq_refl eq_refl eq_refl eq_refl Ef eq_refl eq_refl Hsame Hb Hb0)
    as (c & D & rows & rows' & _ & _ & _ & _ & _ & _ & (_ & v & v0 & nh & eh' & f1 & f2 & V & V0 & _ & _ & _ & _ & F1 & F2 & _ & _ & _ & _ & _ & _ & _ & Hn1) & _).
  assert (v = ub) by congruence. subst v.
  destruct (C77_supported_loads R _ argsortZ argsortF solve m m0 ns ms bs fs fs0 fh fh0 mb mb0 acts m1 out HA Hd Hd0 eq_refl eq_refl eq_refl eq_refl Ef eq_refl eq_refl Hsame Hb Hb0
    (Hcols _ Hlc) Hen HP) as (m1' & HP' & x & x' & X1 & X2 & _ & HR).
  assert (x = u) by congruence. subst x.
  destruct (build_tables _ m0 _ _ _ _ HA Dn Db Df0 Dnd D2 Hb0) as (_ & _ & s2 & w2 & _ & _ & _ & _ & _ & W1 & W2 & _).
  assert (Hw2 : e_width f2 = w) by (rewrite (W2 _ F2), <- (W1 fh0 eq_refl); reflexivity).
  assert (Hset : load_control (S (u_ndof1 ub)) w (m_set mb0)).
  { destruct (PropDefault.build_settings _ _ _ Hb0) as (k & ->). exact Hlc. }
  assert (HS : session argsortF solve argsortZ (load_control (S (u_ndof1 ub)) w) m0 m1').
  { eapply play_session; [exact Hacts|apply s_build; exact Hb0|exact Hset|exact HP']. }
  assert (H0 : forall a, In a (u_R x') -> at_ease (length ns) (length ms) a).
  { apply (C76_at_rest argsortZ argsortF solve m0 ns ms bs fs0 mb0 v0 f2 m1' x' HA Hd0 Hel Hax Hrig).
    - intros l r Hin y Hy. unfold fs0, no_load_rows in Hin. apply in_map_iff in Hin. destruct Hin as (p & E & _). injection E as _ <-. exact (repeat_spec _ _ _ Hy).
    - exact Hb0.
    - exact V0.
    - exact F2.
    - rewrite Hn1. exact Hsol.
    - rewrite Hn1, Hw2. exact HS.
    - exact X2. }
  clear - HR H0. intros a Ha. revert H0. induction HR as [|y y' l l' Hy _ IH]; intros H0; [destruct Ha|].
  destruct Ha as [<-|Ha].
  - destruct Hy as (_ & EU & _ & Er & _ & _ & EF & ES & _). unfold at_ease. rewrite <- EU, <- EF, <- ES, <- Er. apply H0. left. reflexivity.
  - apply IH; [exact Ha|]. intros b Hb. apply H0. right. exact Hb.
Qed.
Print Assumptions C76_supported.

(** The corner with loads on its supports 1 and 3 and across the plane at node 2, run
    with five and then seven increments. *)
Definition propped_corner_loads : list (Z * list R) := [(3%Z, [5; 6; 7]); (2%Z, [0; 0; 9]); (1%Z, [-2; 0; 4])].
Definition propped_corner : model R :=
  Model (m_nodes corner) (m_elems corner) (m_bounds corner) (Some (ForceH [3; 2; 1]%Z 3 [[5; 6; 7]; [0; 0; 9]; [-2; 0; 4]])) (idle_settings 5) None.
Definition propped_corner_built : model R := match build argsort_ins propped_corner with Ok m => m | _ => propped_corner end.
Lemma propped_corner_builds : build argsort_ins propped_corner = Ok propped_corner_built.
Proof. lazy. reflexivity. Qed.
Lemma propped_corner_described : described propped_corner corner_nodes corner_members corner_supports propped_corner_loads.
Proof.
  destruct corner_described as (H1 & H2 & _ & H4 & H5). split; [exact H1|]. split; [exact H2|]. split; [|split; [exact H4|exact H5]].
  split; [reflexivity|]. split; [reflexivity|]. repeat constructor.
Qed.
Lemma propped_corner_free : free_of_load 3 corner_nodes corner_supports propped_corner_loads.
Proof.
  intros l p s Hl Hq Hf. cbn in Hl. destruct s as [|s]; [|rewrite nth_overflow; [reflexivity|]; destruct Hl as [<-|[<-|[<-|[]]]]; cbn -[Nat.mul]; lia].
  destruct Hl as [<-|[<-|[<-|[]]]]; destruct p as [|[|[|p]]]; try (clear - Hq; lia); try (exfalso; clear - Hf; lazy in Hf; discriminate Hf); reflexivity.
Qed.
Lemma idle_control k : load_control 3 3 (idle_settings k).
Proof. split; [reflexivity|]. split; [exists 3%Z; split; reflexivity|cbn; lia]. Qed.

Example C76_supported_meets : exists m1 out u,
  play (fun l => seq 0 (length l)) gauss [ARun 4; ASet (idle_settings 7); ARun 4] propped_corner_built = Ok (m1, out) /\
  m_built m1 = Some u /\ forall a, In a (u_R u) -> at_ease 3 2 a.
Proof.
  destruct (m_built propped_corner_built) as [ub|] eqn:Eu; [|lazy in Eu; discriminate]. destruct (m_forces propped_corner_built) as [fh|] eqn:Ef; [|lazy in Ef; discriminate].
  assert (Hu : u_ndof1 ub = 2%nat) by (lazy in Eu; injection Eu as <-; reflexivity).
  assert (Hr : forall r, In r (e_rows fh) -> (3 <= length r)%nat) by (lazy in Ef; injection Ef as <-; intros r [<-|[<-|[<-|[]]]]; cbn; lia).
  assert (Hset : m_set propped_corner_built = idle_settings 5) by (lazy; reflexivity).
  set (P := load_control 3 3).
  assert (HS : session (fun l => seq 0 (length l)) gauss argsort_ins P propped_corner propped_corner_built) by (apply s_build; exact propped_corner_builds).
  assert (Hc : forall b, In b corner_members -> complete b) by (intros b [<-|[<-|[]]]; split; cbn; try discriminate; lia).
  assert (Hgo : forall m1 u k, session (fun l => seq 0 (length l)) gauss argsort_ins P propped_corner m1 -> m_built m1 = Some u -> u_ndof1 u = 2%nat -> m_set m1 = idle_settings k ->
    m_forces m1 = Some fh -> exists m2 out, run (fun l => seq 0 (length l)) gauss m1 4 = Ok (m2, out)).
  { intros m1 u k H1 H2 H3 H4 H5. apply (C71_run_locked R _ argsort_ins (fun l => seq 0 (length l)) gauss P propped_corner _ _ _ _ m1 u 4 argsort_ins_ok (fun l => Permutation_refl _) (proj1 gauss_sign_free) propped_corner_described H1 Hc H2);
      rewrite ?H3, ?H4; try (cbn; lia); try reflexivity.
    - unfold usable. cbn. repeat split; try lia; try discriminate. intros _. exists 3%Z. split; [reflexivity|lia].
    - intros fh' r E Hin. cbn. assert (fh' = fh) by congruence. subst fh'. exact (Hr r Hin). }
  destruct (Hgo propped_corner_built ub 5%Z HS Eu Hu Hset Ef) as (m2 & out & E2).
  assert (HS2 : session (fun l => seq 0 (length l)) gauss argsort_ins P propped_corner m2) by (eapply s_run; [exact HS|rewrite Hset; apply idle_control|exact E2]).
  destruct (run_ok _ _ _ _ _ _ E2) as (v & _ & _ & _ & _ & _ & u2 & R1 & _ & _ & _ & _ & Em & _ & Rn & _). assert (v = ub) by congruence. subst v.
  set (m2' := with_settings (with_nstatev (s_nstatev (m_set m2)) (idle_settings 7)) m2).
  assert (Em2 : m_set m2' = idle_settings 7) by (unfold m2'; rewrite Em; cbn [m_set with_settings]; rewrite Hset; reflexivity).
  assert (HS3 : session (fun l => seq 0 (length l)) gauss argsort_ins P propped_corner m2') by (apply s_settings; [exact HS2|reflexivity]).
  destruct (Hgo m2' u2 7%Z HS3) as (m3 & out3 & E3); [unfold m2'; rewrite Em; reflexivity|congruence|exact Em2|unfold m2'; rewrite Em; exact Ef|].
  destruct (run_ok _ _ _ _ _ _ E3) as (v & _ & _ & _ & _ & _ & u3 & _ & _ & _ & _ & _ & Em3 & _).
  assert (HP : play (fun l => seq 0 (length l)) gauss [ARun 4; ASet (idle_settings 7); ARun 4] propped_corner_built = Ok (m3, out ++ out3 ++ [])).
  { cbn [play]. rewrite E2. cbn [bind]. fold m2'. rewrite E3. reflexivity. }
  assert (Eu3 : m_built m3 = Some u3) by (rewrite Em3; reflexivity).
  exists m3, (out ++ out3 ++ []), u3. split; [exact HP|]. split; [exact Eu3|].
  apply (C76_supported argsort_ins (fun l => seq 0 (length l)) gauss propped_corner corner_nodes corner_members corner_supports propped_corner_loads propped_corner_built ub
    (ForceH [3; 2; 1]%Z 3 [[5; 6; 7]; [0; 0; 9]; [-2; 0; 4]]) [ARun 4; ASet (idle_settings 7); ARun 4] m3 (out ++ out3 ++ []) u3
    argsort_ins_ok propped_corner_described corner_elastic corner_axes corner_rigid).
  - unfold corner_supports. intros H. discriminate H.
  - reflexivity.
  - exact propped_corner_free.
  - exact propped_corner_builds.
  - exact Eu.
  - apply C60_solver.
  - rewrite Hu. apply idle_control.
  - rewrite Hu. constructor; [exact I|]. constructor; [apply idle_control|]. constructor; [exact I|constructor].
  - exact HP.
  - exact Eu3.
Qed.
