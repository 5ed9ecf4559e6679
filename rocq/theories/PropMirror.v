(** * C61: a mirrored truss behaves like the mirror image *)
From Coq Require Import List ZArith Bool Arith Lia Reals Lra.
Import ListNotations.
From Verif Require Import Num NumR Vec Handlers Material Analysis Truss Equil Solver Run NumFix ListFacts SpecMech SpecBuild SpecRun SpecSame SpecMirror
  MirrorFacts MirrorEval MirrorPath MirrorGauss MirrorRun EditFacts SpecBar PropBar.
Local Open Scope R_scope.

(** Whole sessions, any sequence of runs and changes of settings. *)
Theorem C61_mirrored : forall mir rev argsortZ argsortF solve m m' m0 u, sign_free solve ->
  build argsortZ m = Ok m0 -> m_built m0 = Some u -> whole_loads m -> locked rev (m_set m) -> mirrored_model mir rev (a_DOF1 (u_an u)) m m' ->
  exists m0', build argsortZ m' = Ok m0' /\ mirrored_results mir rev m0 m0' /\
    forall acts m1 out, (forall st, In (ASet st) acts -> locked rev st) -> play argsortF solve acts m0 = Ok (m1, out) ->
      exists m1', play argsortF solve (map (mirrored_action mir rev (a_DOF1 (u_an u))) acts) m0' = Ok (m1', out) /\ mirrored_results mir rev m1 m1'.
Proof.
  intros mir rev argsortZ argsortF solve m m' m0 u Hs Hb Hu HW Hlk HM.
  assert (G : forall x x', model_mir mir rev (a_DOF1 (u_an u)) x x' -> mirrored_results mir rev x x').
  { intros x x' (v & v' & nh & eh & fh & bh & B & B' & _ & _ & _ & _ & _ & _ & _ & _ & _ & _ & _ & _ & _ & HA & HR & HL). exists v, v'.
    split; [exact B|]. split; [exact B'|]. split; [clear - HR; induction HR as [|y y' l l' Hy _ IH]; constructor; [apply Hy|exact IH]|]. split; [exact HL|apply HA]. }
  destruct (build_mirror mir rev argsortZ (a_DOF1 (u_an u)) m m' m0 u HM Hlk HW Hb Hu eq_refl) as (m0' & Hb' & HM0).
  exists m0'. split; [exact Hb'|]. split; [apply G, HM0|]. intros acts m1 out Ha Hp.
  destruct (play_mirror mir rev argsortF solve Hs _ acts Ha _ _ _ _ HM0 Hp) as (m1' & Hp' & HM1). eauto.
Qed.
Print Assumptions C61_mirrored.

(** A plane truss under loads in its plane stays in the plane, also when its nodes are
    free to leave it. *)
Lemma load_keep mir r : mirror_load mir false r = mirror_row mir r.
Proof. unfold mirror_load. cbn [opp_if]. apply map_id. Qed.
Lemma axis_mirror k v : (k < 3)%nat -> (mirror (vset (V3 false false false) k true) v = v <-> vget v k = 0).
Proof.
  intros Hk. destruct v as [x y z]. destruct k as [|[|[|k]]]; try lia; unfold mirror, vmap2; cbn; split; intros H.
  all: first [injection H as H; lra|subst; f_equal; lra|idtac].
Qed.

Theorem C61_plane : forall k argsortZ argsortF solve m m0 u acts m1 out u1, (k < 3)%nat -> sign_free solve ->
  build argsortZ m = Ok m0 -> m_built m0 = Some u -> whole_loads m -> plane_model k m ->
  plane_control k (a_DOF1 (u_an u)) (m_set m) -> (forall st, In (ASet st) acts -> plane_control k (a_DOF1 (u_an u)) st) ->
  play argsortF solve acts m0 = Ok (m1, out) -> m_built m1 = Some u1 ->
  Forall (plane_result k) (u_R u1) /\ plane_result k (u_an u1).
Proof.
  intros k argsortZ argsortF solve m m0 u acts m1 out u1 Hk Hs Hb Hu HW [HP1 HP2] HC HCa Hp Hu1.
  set (mir := vset (V3 false false false) k true). set (D1 := a_DOF1 (u_an u)) in *.
  assert (Ht : forall p, turned mir p = Nat.eqb (p mod 3) k).
  { intros p. unfold turned, mir. pose proof (Nat.mod_upper_bound p 3 ltac:(lia)) as Hu3. destruct (p mod 3)%nat as [|[|[|?]]]; [| | |lia]; destruct k as [|[|[|?]]]; try lia; reflexivity. }
  assert (Hrow : forall r, (forall p v, nth_error r p = Some v -> (p mod 3 = k)%nat -> v = 0) <-> mirror_row mir r = r).
  { intros r. split; intros H.
    - symmetry. apply mirror_row_ext. intros p. destruct (nth_error r p) as [v|] eqn:E; [|reflexivity]. cbn [option_map]. rewrite Ht.
      destruct (Nat.eqb_spec (p mod 3) k) as [E2|_]; [|reflexivity]. rewrite (H p v E E2), opp_if_0. reflexivity.
    - intros p v E E2. pose proof (nth_mirror_row mir r p) as G. rewrite H, E, Ht, E2, Nat.eqb_refl in G. cbn in G. injection G as G. lra. }
  assert (Hset : forall st, plane_control k D1 st -> mirrored_settings mir false D1 st = st).
  { intros st Hst. unfold mirrored_settings. assert (E : option_map (flip_j (unknowns mir false D1)) (s_j0 st) = s_j0 st).
    { destruct (s_j0 st) as [j|] eqn:Ej; [|reflexivity]. cbn [option_map]. f_equal. unfold flip_j.
      destruct (py_get (unknowns mir false D1) (Z.abs j - 1)) as [[]| |] eqn:E; try reflexivity. destruct (Z.eq_dec j 0) as [->|Hj0]; [reflexivity|]. exfalso.
      apply py_get_nth in E. destruct E as (p & Hpos & E). rewrite unknowns_length in Hpos.
      assert (Hpj : (0 <= Z.abs j - 1)%Z) by lia. unfold py_pos in Hpos. destruct (Z.leb_spec 0 (Z.abs j - 1)); [|lia].
      destruct (Z.ltb_spec (Z.abs j - 1) (Z.of_nat (S (length D1)))) as [Hlt|Hge]; cbn [andb] in Hpos.
      2:{ destruct (- Z.of_nat (S (length D1)) <=? Z.abs j - 1)%Z; cbn [andb] in Hpos; [destruct (Z.ltb_spec (Z.abs j - 1) 0); [lia|discriminate]|discriminate]. }
      injection Hpos as <-. unfold unknowns in E.
      destruct (Z_lt_le_dec (Z.abs j - 1) (Z.of_nat (length D1))) as [Hl|Hl].
      - rewrite nth_error_app1 in E by (rewrite map_length; lia). rewrite nth_error_map in E.
        destruct (nth_error D1 (Z.to_nat (Z.abs j - 1))) as [d|] eqn:Ed; [|discriminate]. cbn in E. injection E as E. rewrite Ht in E. apply Nat.eqb_eq in E.
        refine (Hst j d Ej _ Hj0 E). apply py_get_nth. exists (Z.to_nat (Z.abs j - 1)). split; [|exact Ed].
        unfold py_pos. destruct (Z.leb_spec 0 (Z.abs j - 1)); [|lia]. destruct (Z.ltb_spec (Z.abs j - 1) (Z.of_nat (length D1))); [reflexivity|lia].
      - rewrite nth_error_app2 in E by (rewrite map_length; lia). rewrite map_length in E.
        replace (Z.to_nat (Z.abs j - 1) - length D1)%nat with 0%nat in E by lia. discriminate. }
    rewrite E. destruct st; reflexivity. }
  assert (HM : mirrored_model mir false D1 m m).
  { split.
    - destruct (m_nodes m) as [h|]; [|reflexivity]. cbn. f_equal. destruct h as [ls cs]. cbn. f_equal. specialize (HP1 _ eq_refl). cbn in HP1.
      induction HP1 as [|x cs Hx _ IH]; [reflexivity|]. cbn. f_equal; [|exact IH]. symmetry. apply axis_mirror; assumption.
    - split; [|split; [reflexivity|split; [reflexivity|symmetry; apply Hset, HC]]]. destruct (m_forces m) as [h|]; [|reflexivity]. cbn [option_map]. f_equal. destruct h as [ns w rows]. cbn [e_nodes e_width e_rows].
      f_equal. specialize (HP2 _ eq_refl). cbn [e_rows] in HP2. induction HP2 as [|r rows Hr _ IH]; [reflexivity|]. cbn [map]. f_equal; [|exact IH]. rewrite load_keep. symmetry. apply Hrow, Hr. }
  destruct (C61_mirrored mir false argsortZ argsortF solve m m m0 u Hs Hb Hu HW ltac:(discriminate) HM) as (m0' & Hb' & _ & Hplay).
  rewrite Hb in Hb'. injection Hb' as <-. destruct (Hplay _ _ _ ltac:(discriminate) Hp) as (m1' & Hp' & HR).
  assert (Ea : map (mirrored_action mir false (a_DOF1 (u_an u))) acts = acts).
  { clear - HCa Hset. induction acts as [|[fuel|st] acts IH]; [reflexivity| |]; cbn [map mirrored_action]; f_equal; try (apply IH; intros st' H; apply HCa; right; exact H).
    f_equal. apply Hset, HCa. left. reflexivity. }
  rewrite Ea, Hp in Hp'. injection Hp' as <-. destruct HR as (v & v' & E1 & E2 & HF & _ & HA).
  assert (v = u1) by congruence. assert (v' = u1) by congruence. subst v v'.
  assert (Hone : forall a, mirrored_result mir false a a -> plane_result k a).
  { intros a (_ & _ & _ & EU & _ & Er & Eg & _). 
    assert (Hv : forall l, l = map (mirror mir) l -> Forall (fun x => vget x k = 0) l).
    { induction l as [|x l IH]; intros E; [constructor|]. cbn in E. injection E as E3 E4. constructor; [apply axis_mirror; [exact Hk|symmetry; exact E3]|apply IH, E4]. }
    split; [apply Hv, EU|]. split; [apply Hv, Er|]. apply Hrow. symmetry. exact Eg. }
  split; [|apply Hone, HA].
  assert (HF2 : forall l, Forall2 (mirrored_result mir false) l l -> Forall (plane_result k) l).
  { induction l as [|a l IH]; intros H; [constructor|]. inversion H; subst. constructor; [apply Hone; assumption|auto]. }
  apply HF2, HF.
Qed.
Print Assumptions C61_plane.

(** Gaussian elimination with partial pivoting is such a solver. *)
Theorem C61_solver : sign_free (gauss (F := R)).
Proof. exact gauss_sign_free. Qed.
Print Assumptions C61_solver.

(** ** A bar pulled in three increments, and its mirror image *)
Lemma gauss_exact2 : exact2 gauss.
Proof.
  intros a b c d r s H. unfold gauss. cbn [map2 app length eliminate pivot hd tl last map fold_left]. numR.
  destruct (Rltb (Rabs a) (Rabs c)) eqn:E; cbn [hd tl map map2 last fold_left app]; numR; eexists _, _; (split; [reflexivity|]).
  - apply Rltb_true in E. assert (Hc : c <> 0). { intros ->. rewrite Rabs_R0 in E. pose proof (Rabs_pos a). lra. }
    assert (Hd : b - a / c * d <> 0). { intros E2. apply H. replace (a * d - b * c) with (- c * (b - a / c * d)) by (field; exact Hc). rewrite E2. ring. }
    cbn. numR. split; field; (split; [intros E2; apply H; lra|exact Hc]) || (split; [exact Hc|intros E2; apply H; lra]).
  - apply Rltb_false in E. assert (Ha : a <> 0).
    { intros ->. rewrite Rabs_R0 in E. assert (c = 0). { destruct (Req_dec c 0) as [|Hc]; [assumption|]. pose proof (Rabs_pos_lt c Hc). lra. } apply H. subst c. ring. }
    assert (Hd : d - c / a * b <> 0). { intros E2. apply H. replace (a * d - b * c) with (a * (d - c / a * b)) by (field; exact Ha). rewrite E2. ring. }
    cbn. numR. split; field; (split; [intros E2; apply H; lra|exact Ha]) || (split; [exact Ha|intros E2; apply H; lra]).
Qed.

Lemma mirror_bar_session : exists m1 m2 out u1 u2 a,
  build argsort_ins (bar_model 1 (V3 0 2 3) 2 3 2 1 (ex_settings (-1) 3)) = Ok m1 /\ m_built m1 = Some u1 /\ a_DOF1 (u_an u1) = [4%nat] /\
  play sort2 gauss [ARun 1] m1 = Ok (m2, out) /\ m_built m2 = Some u2 /\ nth_error (u_R u2) 3 = Some a /\
  a_lpf a = -9/4 /\ a_U a = [vzero; V3 0 (-3/4) 0] /\ a_force a = [-9/4].
Proof.
  assert (Hinv : forall m, (1 <= m <= Z.to_nat 3)%nat ->
    - (2) < fst (point (3 * 2 / 2) 0 1 (-1) (INR m * (comp (-1) (s_du (ex_settings (-1) 3)) (s_dlpf (ex_settings (-1) 3)) * IZR (Z.sgn (-1)))))).
  { intros m Hm. change (Z.to_nat 3) with 3%nat in Hm. assert (0 <= INR m <= 3).
    { split; [apply pos_INR|]. replace 3 with (INR 3) by (cbn; lra). apply le_INR. lia. }
    cbn. lra. }
  destruct (C41_session argsort_ins sort2 gauss 1 (V3 0 2 3) 2 3 2 1 (ex_settings (-1) 3) (-1) 3 0 0
    argsort_ins_ok sort2_ok gauss_exact2 ltac:(lia) ltac:(lra) eq_refl eq_refl eq_refl eq_refl eq_refl ltac:(lia) eq_refl
    ltac:(cbn; lia) ltac:(cbn; lra) ltac:(cbn; lia) ltac:(left; split; [reflexivity|lra]) ltac:(cbn; lra) Hinv) as (m1 & m2 & out & u2 & E1 & E2 & E3 & E4 & E5 & E6).
  destruct (E6 3%nat) as (a & u & lam & A1 & A2 & A3 & A4 & A5 & A6); [change (Z.to_nat 3) with 3%nat; lia|].
  cbn in A3. assert (Eu : u = -3/4) by lra. assert (El : lam = -9/4) by lra. rewrite Eu in A4, A6. rewrite El in A5.
  assert (HB : exists u1, m_built m1 = Some u1 /\ a_DOF1 (u_an u1) = [4%nat]).
  { clear - E1. revert E1. match goal with |- ?b = Ok m1 -> _ => let r := eval lazy in b in change b with r end.
    intros H. injection H as <-. eexists. split; reflexivity. }
  destruct HB as (u1 & Eu1 & HD). exists m1, m2, out, u1, u2, a. do 3 (split; [assumption|]).
  split. { cbn [play]. rewrite E2. cbn [bind]. rewrite app_nil_r. reflexivity. }
  do 2 (split; [assumption|]). split; [exact A5|]. split; [exact A4|]. rewrite A6. f_equal. lra.
Qed.

(** The mirror image, told to move the other way, takes the same load factor. *)
Definition mirror_bar : model R :=
  Model (Some (NodeH [1; 2]%Z [V3 0 (-2) 3; V3 0 (-4) 3]))
    (Some (ElemH [1]%Z [(1, 2)]%Z [1]%Z [1]%Z (Tab false 1 [[3]]) (Tab false 1 [[2]])))
    (Some (BoundH [1; 2]%Z (UMat 3 [[0; 0; 0]; [0; 1; 0]]%Z))) (Some (ForceH [2]%Z 3 [[0; -1; 0]])) (ex_settings 1 3) None.

Example C61_meets : exists m1 out u a, build argsort_ins mirror_bar = Ok m1 /\
  exists m2, play sort2 gauss [ARun 1] m1 = Ok (m2, out) /\ m_built m2 = Some u /\ nth_error (u_R u) 3 = Some a /\
    a_lpf a = -9/4 /\ a_U a = [vzero; V3 0 (3/4) 0] /\ a_force a = [-9/4].
Proof.
  destruct mirror_bar_session as (m1 & m2 & out & u1 & u2 & a & E1 & E2 & E3 & E4 & E5 & E6 & E7 & E8 & E9).
  set (mir := V3 false true false).
  assert (HW : whole_loads (bar_model 1 (V3 0 2 3) 2 3 2 1 (ex_settings (-1) 3))).
  { intros h H. injection H as <-. split; [reflexivity|]. repeat constructor. }
  assert (HM : mirrored_model mir false (a_DOF1 (u_an u1)) (bar_model 1 (V3 0 2 3) 2 3 2 1 (ex_settings (-1) 3)) mirror_bar).
  { rewrite E3. split; [|split; [|split; [reflexivity|split; reflexivity]]].
    - cbn. unfold mirror, vmap2. cbn. unfold vadd, vmap2. cbn. numR. do 2 f_equal. repeat (f_equal; try lra).
    - cbn. unfold mirror_row, flip. cbn. do 3 f_equal. }
  destruct (C61_mirrored mir false argsort_ins sort2 gauss _ _ _ _ C61_solver E1 E2 HW ltac:(discriminate) HM) as (m1' & B & _ & P).
  destruct (P _ _ _ ltac:(discriminate) E4) as (m2' & P' & v & v' & V1 & V2 & HF & _). rewrite E5 in V1. injection V1 as <-.
  assert (Hn : forall k (l l' : list (analysis R)) x, Forall2 (mirrored_result mir false) l l' -> nth_error l k = Some x -> exists y, nth_error l' k = Some y /\ mirrored_result mir false x y).
  { clear. intros k l l' x H. revert k. induction H as [|b b' l l' Hb H IH]; intros [|k] E; cbn in E; try discriminate; [injection E as <-; cbn; eauto|cbn; eauto]. }
  destruct (Hn _ _ _ _ HF E6) as (a' & Ea' & (_ & _ & _ & EU & _ & _ & _ & _ & _ & Efo & _ & _ & El & _)).
  exists m1', out, v', a'. split; [exact B|]. exists m2'. split; [exact P'|]. split; [exact V2|]. split; [exact Ea'|].
  rewrite El, E7, EU, E8, Efo, E9. split; [reflexivity|]. split; [|reflexivity]. cbn. unfold mirror, vmap2, vzero, mir. cbn. numR. repeat (f_equal; try lra).
Qed.

(** The bar lies in the plane x = 0. *)
Example C61_plane_meets : exists m m0 u acts m1 out u1, build argsort_ins m = Ok m0 /\ m_built m0 = Some u /\ whole_loads m /\ plane_model 0 m /\
  plane_control 0 (a_DOF1 (u_an u)) (m_set m) /\ (forall st, In (ASet st) acts -> plane_control 0 (a_DOF1 (u_an u)) st) /\
  play sort2 gauss acts m0 = Ok (m1, out) /\ m_built m1 = Some u1 /\ (4 <= length (u_R u1))%nat.
Proof.
  destruct mirror_bar_session as (m1 & m2 & out & u1 & u2 & a & E1 & E2 & E3 & E4 & E5 & E6 & _).
  exists (bar_model 1 (V3 0 2 3) 2 3 2 1 (ex_settings (-1) 3)), m1, u1, [ARun 1], m2, out, u2. do 2 (split; [assumption|]).
  split. { intros h H. injection H as <-. split; [reflexivity|]. repeat constructor. }
  split. { split; intros h H; injection H as <-; cbn.
    - repeat constructor. cbn. numR. lra.
    - constructor; [|constructor]. intros [|[|[|p]]] v Hv Hp; cbn in Hv; try discriminate Hp; [injection Hv as <-; reflexivity|destruct p; discriminate]. }
  split. { rewrite E3. intros j p Hj Hg _. injection Hj as <-. cbn in Hg. injection Hg as <-. discriminate. }
  split. { intros st [H|[]]. discriminate. }
  do 2 (split; [assumption|]). assert (3 < length (u_R u2))%nat by (apply nth_error_Some; congruence). lia.
Qed.
