(** * C65: turning the loads round turns the load factors round *)
From Coq Require Import List ZArith Bool Arith Lia Reals Lra.
Import ListNotations.
From Verif Require Import Num NumR Vec Handlers Material Analysis Truss Equil Solver Run NumFix ListFacts SpecMech SpecBuild SpecRun SpecSame SpecMirror SpecReverse
  MirrorFacts MirrorEval MirrorPath MirrorRun EditFacts SpecBar PropBar PropMirror.
Local Open Scope R_scope.

Definition none : v3 bool := V3 false false false.

Lemma turned_none p : turned none p = false.
Proof. unfold turned, none. pose proof (Nat.mod_upper_bound p 3 ltac:(lia)). destruct (p mod 3)%nat as [|[|[|?]]]; try reflexivity; lia. Qed.
Lemma mirror_none v : mirror none v = v.
Proof. destruct v. reflexivity. Qed.
Lemma mirror_none_map l : map (mirror none) l = l.
Proof. rewrite <- (map_id l) at 2. apply map_ext, mirror_none. Qed.
Lemma block_none (K : list (list (m3 R))) : map (map (mirror_block none)) K = K.
Proof.
  rewrite <- (map_id K) at 2. apply map_ext. intros row. rewrite <- (map_id row) at 2. apply map_ext.
  intros [[a b c] [d e f] [g h i]]. reflexivity.
Qed.
Lemma row_none l : mirror_row none l = l.
Proof.
  symmetry. apply mirror_row_ext. intros p. rewrite turned_none. destruct (nth_error l p); reflexivity.
Qed.
Lemma rows_none l : map (mirror_row none) l = l.
Proof. rewrite <- (map_id l) at 2. apply map_ext, row_none. Qed.
Lemma load_none l : mirror_load none true l = map Ropp l.
Proof. unfold mirror_load. rewrite row_none. reflexivity. Qed.
Lemma loads_none l : map (mirror_load none true) l = map (map Ropp) l.
Proof. apply map_ext, load_none. Qed.
Lemma turned_all D1 : map (turned none) D1 = repeat false (length D1).
Proof. induction D1 as [|p D IH]; [reflexivity|]. cbn. rewrite turned_none, IH. reflexivity. Qed.
Lemma flip_none D1 x : length x = length D1 -> flip (unknowns none true D1) x = x.
Proof.
  intros H. rewrite flip_unknowns, turned_all by exact H. rewrite <- H. clear. unfold flip.
  induction x as [|v x IH]; [reflexivity|]. cbn. rewrite IH. reflexivity.
Qed.
Lemma flip_j_none D1 j : flip_j (unknowns none true D1) j = reversed_j (length D1) j.
Proof.
  unfold flip_j, reversed_j, unknowns, py_get, py_pos. rewrite turned_all, app_length, repeat_length. cbn [length]. set (n := length D1).
  destruct (Z.leb_spec 0 (Z.abs j - 1)) as [H0|H0].
  - destruct (Z.ltb_spec (Z.abs j - 1) (Z.of_nat (n + 1))) as [H1|H1]; cbn [andb].
    + cbn [bind]. destruct (Z.eqb_spec (Z.abs j) (Z.of_nat (S n))) as [E|E].
      * rewrite nth_error_app2 by (rewrite repeat_length; lia). rewrite repeat_length. replace (Z.to_nat (Z.abs j - 1) - n)%nat with 0%nat by lia. reflexivity.
      * rewrite nth_error_app1 by (rewrite repeat_length; lia).
        destruct (nth_error (repeat false n) _) eqn:E2; [|reflexivity]. apply nth_error_In, repeat_spec in E2. subst. reflexivity.
    + destruct (Z.ltb_spec (Z.abs j - 1) 0); [lia|]. destruct (- Z.of_nat (n + 1) <=? _)%Z; cbn [andb bind]; destruct (Z.eqb_spec (Z.abs j) (Z.of_nat (S n))); try lia; reflexivity.
  - assert (j = 0%Z) by lia. subst j. cbn [andb]. destruct (Z.eqb_spec (Z.abs 0) (Z.of_nat (S n))); [lia|].
    destruct (_ && _)%bool; cbn [bind]; [|reflexivity]. destruct (nth_error _ _) as [[]|]; reflexivity.
Qed.
Lemma settings_none D1 s : mirrored_settings none true D1 s = reversed_settings (length D1) s.
Proof. unfold mirrored_settings, reversed_settings, with_j0. f_equal. destruct (s_j0 s) as [j|]; [|reflexivity]. cbn. f_equal. apply flip_j_none. Qed.

Lemma result_none D1 a a' : Mir none true D1 a a' -> reversed_result a a'.
Proof.
  intros (HD & _ & _ & [HLU _] & H). unfold mirrored_result in H. cbv zeta in H. rewrite HD in H.
  destruct H as (E1 & E2 & E3 & E4 & E5 & E6 & E7 & E8 & E9 & E10 & E11 & E12 & E13 & E14 & E15 & E16 & _ & _ & _ & E20 & E21).
  rewrite mirror_none_map in E4, E5, E6. rewrite row_none in E7. rewrite block_none in E8. rewrite flip_none in E16 by exact HLU.
  rewrite rows_none in E20. rewrite loads_none in E21. rewrite flip_j_none in E15. cbn [opp_if] in E13.
  unfold reversed_result. rewrite HD. repeat (split; [assumption|]). assumption.
Qed.

(** Whole sessions with a locked control component, any sequence of runs and changes
    of settings. *)
Theorem C65_reversed : forall argsortZ argsortF solve m m' m0 u, sign_free solve ->
  build argsortZ m = Ok m0 -> m_built m0 = Some u -> whole_loads m -> s_jfixed (m_set m) = true -> reversed_model (length (a_DOF1 (u_an u))) m m' ->
  exists m0', build argsortZ m' = Ok m0' /\ reversed_results m0 m0' /\
    forall acts m1 out, (forall st, In (ASet st) acts -> s_jfixed st = true) -> play argsortF solve acts m0 = Ok (m1, out) ->
      exists m1', play argsortF solve (map (reversed_action (length (a_DOF1 (u_an u)))) acts) m0' = Ok (m1', out) /\ reversed_results m1 m1'.
Proof.
  intros argsortZ argsortF solve m m' m0 u Hs Hb Hu HW Hlk (F1 & F2 & F3 & F4 & F5). set (D1 := a_DOF1 (u_an u)) in *.
  assert (HM : mirrored_model none true D1 m m').
  { split; [|split; [|split; [exact F3|split; [exact F4|rewrite F5; symmetry; apply settings_none]]]].
    - rewrite F2. destruct (m_nodes m) as [[ls cs]|]; [|reflexivity]. cbn. rewrite mirror_none_map. reflexivity.
    - rewrite F1. destruct (m_forces m) as [h|]; [|reflexivity]. cbn. rewrite loads_none. reflexivity. }
  assert (G : forall x x', model_mir none true D1 x x' -> reversed_results x x').
  { intros x x' (v & v' & nh & eh & fh & bh & B & B' & _ & _ & _ & _ & _ & _ & _ & _ & _ & _ & _ & _ & _ & HA & HR & HL). exists v, v'.
    split; [exact B|]. split; [exact B'|]. split; [clear - HR; induction HR as [|y y' l l' Hy _ IH]; constructor; [apply (result_none D1), Hy|exact IH]|].
    split; [exact HL|apply (result_none D1), HA]. }
  destruct (build_mirror none true argsortZ D1 m m' m0 u HM (fun _ => Hlk) HW Hb Hu eq_refl) as (m0' & Hb' & HM0).
  exists m0'. split; [exact Hb'|]. split; [apply G, HM0|]. intros acts m1 out Ha Hp.
  destruct (play_mirror none true argsortF solve Hs _ acts (fun st H _ => Ha st H) _ _ _ _ HM0 Hp) as (m1' & Hp' & HM1).
  replace (map (reversed_action (length D1)) acts) with (map (mirrored_action none true D1) acts); [eauto|].
  apply map_ext. intros [fuel|st]; [reflexivity|]. cbn [mirrored_action reversed_action]. f_equal. apply settings_none.
Qed.
Print Assumptions C65_reversed.

(** ** A bar compressed in three increments, with its load given either way *)
Definition turned_bar : model R :=
  Model (Some (NodeH [1; 2]%Z [V3 0 2 3; V3 0 4 3]))
    (Some (ElemH [1]%Z [(1, 2)]%Z [1]%Z [1]%Z (Tab false 1 [[3]]) (Tab false 1 [[2]])))
    (Some (BoundH [1; 2]%Z (UMat 3 [[0; 0; 0]; [0; 1; 0]]%Z))) (Some (ForceH [2]%Z 3 [[0; -1; 0]])) (ex_settings (-1) 3) None.

Example C65_meets : exists m1 out u a, build argsort_ins turned_bar = Ok m1 /\
  exists m2, play sort2 gauss [ARun 1] m1 = Ok (m2, out) /\ m_built m2 = Some u /\ nth_error (u_R u) 3 = Some a /\
    a_lpf a = 9/4 /\ a_U a = [vzero; V3 0 (-3/4) 0] /\ a_force a = [-9/4].
Proof.
  destruct mirror_bar_session as (m1 & m2 & out & u1 & u2 & a & E1 & E2 & E3 & E4 & E5 & E6 & E7 & E8 & E9).
  assert (HW : whole_loads (bar_model 1 (V3 0 2 3) 2 3 2 1 (ex_settings (-1) 3))).
  { intros h H. injection H as <-. split; [reflexivity|]. repeat constructor. }
  assert (HM : reversed_model (length (a_DOF1 (u_an u1))) (bar_model 1 (V3 0 2 3) 2 3 2 1 (ex_settings (-1) 3)) turned_bar).
  { rewrite E3. split; [|split; [|split; [reflexivity|split; reflexivity]]].
    - cbn. rewrite Ropp_0. reflexivity.
    - cbn. unfold vadd, vmap2. cbn. numR. do 2 f_equal. f_equal. f_equal. f_equal; lra. }
  destruct (C65_reversed argsort_ins sort2 gauss _ _ _ _ C61_solver E1 E2 HW eq_refl HM) as (m1' & B & _ & P).
  destruct (P [ARun 1] _ _ ltac:(intros st [H|[]]; discriminate) E4) as (m2' & P' & v & v' & V1 & V2 & HF & _). rewrite E5 in V1. injection V1 as <-.
  assert (Hn : forall k (l l' : list (analysis R)) x, Forall2 reversed_result l l' -> nth_error l k = Some x -> exists y, nth_error l' k = Some y /\ reversed_result x y).
  { clear. intros k l l' x H. revert k. induction H as [|b b' l l' Hb H IH]; intros [|k] E; cbn in E; try discriminate; [injection E as <-; cbn; eauto|cbn; eauto]. }
  destruct (Hn _ _ _ _ HF E6) as (a' & Ea' & (_ & _ & _ & EU & _ & _ & _ & _ & _ & Efo & _ & _ & _ & _ & _ & El & _)).
  exists m1', out, v', a'. split; [exact B|]. exists m2'. split; [exact P'|]. split; [exact V2|]. split; [exact Ea'|].
  rewrite El, E7, EU, E8, Efo, E9. split; [lra|]. split; reflexivity.
Qed.
