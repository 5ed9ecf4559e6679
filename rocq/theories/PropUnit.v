(** * C68: the unit of force does not matter *)
From Coq Require Import List ZArith Bool Arith Lia Reals Lra.
Import ListNotations.
From Verif Require Import Num NumR Vec Handlers Material Analysis Truss Equil Solver Run NumFix ListFacts SpecMech SpecBuild SpecRun SpecSame SpecUnit
  MirrorFacts UnitFacts UnitPath UnitRun EditFacts SpecBar PropBar PropMirror.
Local Open Scope R_scope.

(** Whole sessions, any sequence of runs and changes of settings, in a unit of force
    [10^k] times smaller, with [k] decimals less in the tolerance of the residual. *)
Theorem C68_rescaled : forall k argsortZ argsortF solve m m' m0, scale_free solve -> keeps_control solve ->
  build argsortZ m = Ok m0 -> rescaled_model k m m' ->
  exists m0', build argsortZ m' = Ok m0' /\ rescaled_results k m0 m0' /\
    forall acts m1 out, play argsortF solve acts m0 = Ok (m1, out) ->
      exists m1', play argsortF solve (map (rescaled_action k) acts) m0' = Ok (m1', out) /\ rescaled_results k m1 m1'.
Proof.
  intros k argsortZ argsortF solve m m' m0 Hf Hc Hb HM.
  assert (Hu : exists u, m_built m0 = Some u).
  { clear - Hb. unfold build in Hb. destruct (m_nodes m); [|discriminate]. destruct (m_elems m); [|discriminate]. cbv zeta in Hb.
    repeat (apply bind_ok in Hb; destruct Hb as (? & _ & Hb); repeat match type of Hb with match ?o with _ => _ end = _ => destruct o; try discriminate Hb end). 
    all: injection Hb as <-; eexists; reflexivity. }
  destruct Hu as (u & Hu).
  assert (G : forall D1 x x', model_uni k D1 x x' -> rescaled_results k x x').
  { intros D1 x x' (v & v' & nh & eh & fh & bh & B & B' & _ & _ & _ & _ & _ & _ & _ & _ & _ & _ & _ & HA & HR & HL). exists v, v'.
    split; [exact B|]. split; [exact B'|]. split; [clear - HR; induction HR as [|y y' l l' Hy _ IH]; constructor; [apply Hy|exact IH]|]. split; [exact HL|apply HA]. }
  destruct (build_unit k argsortZ (a_DOF1 (u_an u)) m m' m0 u HM Hb Hu eq_refl) as (m0' & Hb' & HM0).
  exists m0'. split; [exact Hb'|]. split; [eapply G, HM0|]. intros acts m1 out Hp.
  destruct (play_unit k argsortF solve Hf Hc _ acts _ _ _ _ HM0 Hp) as (m1' & Hp' & HM1). eauto.
Qed.
Print Assumptions C68_rescaled.

(** Single evaluations, in any unit of force. *)
Theorem C68_evaluated : forall t c V V0 w a a' b gr, 0 < t -> length (a_Ured a) = length (a_DOF1 a) -> rescaled_result t a a' ->
  equilibrium c V V0 w a = Ok (b, gr) ->
  exists b', equilibrium (Ctx (c_labels c) (c_coords c) (rescaled_elems t (c_elems c)) (c_nnodes c) (c_ndof1 c) (c_nstatev c)) V V0 w a' = Ok (b', map (Rmult t) gr) /\ rescaled_result t b b'.
Proof.
  intros t c V V0 w a a' b gr Ht HL HR H. destruct (equilibrium_unit t Ht (a_DOF1 a) c V V0 w a a' b gr (conj (conj eq_refl HL) HR) H) as (_ & b' & E & HU).
  exists b'. split; [exact E|apply HU].
Qed.
Print Assumptions C68_evaluated.

(** ** A solver with both properties
    Equations are divided by the sum of their absolute coefficients before the
    elimination; an unknown that the last equation gives alone is taken from there. *)
Definition size (row : list R) : R := fold_right (fun x s => Rabs x + s) 0 row.
Definition pinned (row : list R) : option nat :=
  match filter (fun i => negb (Reqb (nth i row 0) 0)) (seq 0 (length row)) with [p] => Some p | _ => None end.
Definition careful (M : list (list R)) (b : list R) : list R :=
  let x := gauss (map (fun row => map (fun v => v / size row) row) M) (map2 (fun row v => v / size row) M b) in
  let y := map (fun i => nth i x 0) (seq 0 (length b)) in
  let row := nth (pred (length b)) M [] in
  match pinned row with
  | Some p => set_nth p (nth (pred (length b)) b 0 / nth p row 0) y
  | None => y
  end.

Lemma size_scale t row : 0 < t -> size (map (Rmult t) row) = t * size row.
Proof. intros Ht. induction row as [|x row IH]; unfold size in *; cbn; [ring|]. rewrite IH, Rabs_mult, (Rabs_right t) by lra. ring. Qed.
Lemma div_scale t x s : 0 < t -> t * x / (t * s) = x / s.
Proof.
  intros Ht. destruct (Req_dec s 0) as [->|Hs]; [|field; split; lra]. rewrite Rmult_0_r. unfold Rdiv. rewrite Rinv_0. ring.
Qed.
Lemma nth_scale t row i : nth i (map (Rmult t) row) 0 = t * nth i row 0.
Proof. rewrite <- (Rmult_0_r t) at 1. apply map_nth. Qed.
Lemma pinned_scale t row : 0 < t -> pinned (map (Rmult t) row) = pinned row.
Proof.
  intros Ht. unfold pinned. rewrite map_length. replace (filter (fun i => negb (Reqb (nth i (map (Rmult t) row) 0) 0)) _) with (filter (fun i => negb (Reqb (nth i row 0) 0)) (seq 0 (length row))); [reflexivity|].
  apply filter_ext. intros i. rewrite nth_scale, t_eq0 by exact Ht. reflexivity.
Qed.
Lemma set_nth_len {A} (l : list A) p v : length (set_nth p v l) = length l.
Proof. revert p. induction l as [|y l IH]; intros [|q]; cbn; auto. Qed.
Lemma set_nth_same {A} (l : list A) p v : (p < length l)%nat -> nth_error (set_nth p v l) p = Some v.
Proof. revert p. induction l as [|y l IH]; intros [|q] H; cbn in *; try lia; [reflexivity|]. apply IH. lia. Qed.
Lemma set_nth_other {A} (l : list A) p q v : p <> q -> nth_error (set_nth p v l) q = nth_error l q.
Proof. revert p q. induction l as [|y l IH]; intros [|p] [|q] H; cbn in *; try reflexivity; try lia. apply IH. lia. Qed.

Theorem C68_solver : scale_free careful /\ keeps_control careful.
Proof.
  split.
  - intros ts M b Hts L1 L2 _. unfold careful. cbv zeta.
    assert (E1 : map (fun row => map (fun v => v / size row) row) (map2 (fun t row => map (Rmult t) row) ts M) = map (fun row => map (fun v => v / size row) row) M).
    { rewrite <- L2 in L1. clear L2 b. revert M L1. induction Hts as [|t ts Ht Hts IH]; intros [|row M] L; try discriminate L; [reflexivity|]. cbn [map map2 length] in *. rewrite IH by lia. f_equal.
      rewrite map_map, size_scale by exact Ht. apply map_ext. intros x. apply div_scale, Ht. }
    assert (E2 : map2 (fun row v => v / size row) (map2 (fun t row => map (Rmult t) row) ts M) (map2 Rmult ts b) = map2 (fun row v => v / size row) M b).
    { clear E1. revert M b L1 L2. induction Hts as [|t ts Ht Hts IH]; intros [|row M] [|v b] L1 L2; try discriminate L1; try discriminate L2; [reflexivity|]. cbn [map map2 length] in *. rewrite IH by lia. f_equal.
      rewrite size_scale by exact Ht. apply div_scale, Ht. }
    assert (E3 : length (map2 Rmult ts b) = length b) by (rewrite map2_length; lia).
    rewrite E1, E2, E3. clear E1 E2 E3. set (y := map _ (seq 0 (length b))). clearbody y.
    destruct b as [|v0 b]; [destruct ts; [|discriminate]; destruct M; [reflexivity|discriminate]|].
    set (i := pred (length (v0 :: b))). assert (Hi : (i < length (v0 :: b))%nat) by (unfold i; cbn; lia).
    destruct (nth_error ts i) as [t|] eqn:Et; [|apply nth_error_None in Et; lia].
    assert (Ht : 0 < t) by (rewrite Forall_forall in Hts; apply Hts; eapply nth_error_In, Et).
    destruct (nth_error M i) as [row|] eqn:Em; [|apply nth_error_None in Em; lia]. destruct (nth_error (v0 :: b) i) as [v|] eqn:Ev; [|apply nth_error_None in Ev; lia].
    rewrite (nth_error_nth M i [] Em), (nth_error_nth _ _ 0 Ev).
    rewrite (nth_error_nth _ i [] (x := map (Rmult t) row)) by (rewrite nth_error_map2, Et, Em; reflexivity).
    rewrite (nth_error_nth (map2 Rmult ts (v0 :: b)) i 0 (x := t * v)) by (rewrite nth_error_map2, Et, Ev; reflexivity).
    rewrite pinned_scale by exact Ht. destruct (pinned row) as [p|]; [|reflexivity]. rewrite nth_scale, div_scale by exact Ht. reflexivity.
  - intros M b p c LM _ Hp. unfold careful. cbv zeta. rewrite app_length. cbn [length]. rewrite Nat.add_1_r. cbn [pred].
    rewrite (nth_error_nth (M ++ _) (length b) [] (x := set_nth p 1 (repeat 0 (S (length b))))) by (rewrite nth_error_app2, LM, Nat.sub_diag by lia; reflexivity).
    rewrite (nth_error_nth (b ++ _) (length b) 0 (x := c)) by (rewrite nth_error_app2, Nat.sub_diag by lia; reflexivity).
    assert (Hn : forall i, (i < S (length b))%nat -> nth i (set_nth p 1 (repeat 0 (S (length b)))) 0 = if Nat.eqb i p then 1 else 0).
    { intros i Hi. destruct (Nat.eqb_spec i p) as [->|Hne].
      - apply nth_error_nth, set_nth_same. rewrite repeat_length. exact Hi.
      - apply nth_error_nth. rewrite set_nth_other by congruence. rewrite nth_error_repeat. destruct (Nat.ltb_spec i (S (length b))); [reflexivity|lia]. }
    assert (HP : pinned (set_nth p 1 (repeat 0 (S (length b)))) = Some p).
    { unfold pinned. rewrite set_nth_len, repeat_length.
      assert (G : forall m s, filter (fun i => Nat.eqb i p) (seq s m) = if (Nat.leb s p && Nat.ltb p (s + m))%bool then [p] else []).
      { clear. induction m as [|m IH]; intros s; cbn [seq filter].
        - destruct (Nat.leb_spec s p), (Nat.ltb_spec p (s + 0)); cbn; try reflexivity; lia.
        - rewrite IH. destruct (Nat.eqb_spec s p) as [Es|Hs]; destruct (Nat.leb_spec (S s) p), (Nat.leb_spec s p), (Nat.ltb_spec p (S s + m)), (Nat.ltb_spec p (s + S m)); cbn; try lia; try reflexivity; rewrite Es; reflexivity. }
      replace (filter _ (seq 0 (S (length b)))) with (filter (fun i => Nat.eqb i p) (seq 0 (S (length b)))).
      + rewrite G. destruct (Nat.leb_spec 0 p), (Nat.ltb_spec p (0 + S (length b))); cbn; try reflexivity; lia.
      + apply filter_ext_in. intros i Hi. apply in_seq in Hi. rewrite Hn by lia. destruct (Nat.eqb i p); unfold Reqb; [destruct (Req_EM_T 1 0); [lra|reflexivity]|destruct (Req_EM_T 0 0); [reflexivity|lra]]. }
    rewrite HP, Hn, Nat.eqb_refl by exact Hp. rewrite set_nth_len, map_length, seq_length. split; [reflexivity|].
    rewrite set_nth_same by (rewrite map_length, seq_length; exact Hp). f_equal. field.
Qed.
Print Assumptions C68_solver.

Lemma careful_exact2 : exact2 careful.
Proof.
  intros a b c d r s H. unfold careful. cbv zeta. cbn [map map2 length pred nth seq].
  assert (Hw : forall x y, (x <> 0 \/ y <> 0) -> 0 < size [x; y]).
  { intros x y Hxy. cbn. pose proof (Rabs_pos x). pose proof (Rabs_pos y). destruct Hxy as [G|G]; apply Rabs_pos_lt in G; lra. }
  assert (H1 : 0 < size [a; b]). { apply Hw. destruct (Req_dec a 0) as [->|]; [|tauto]. right. intros ->. apply H. ring. }
  assert (H2 : 0 < size [c; d]). { apply Hw. destruct (Req_dec c 0) as [->|]; [|tauto]. right. intros ->. apply H. ring. }
  clear Hw. set (v := size [a; b]) in *. set (w := size [c; d]) in *. clearbody v w.
  destruct (gauss_exact2 (a / v) (b / v) (c / w) (d / w) (r / v) (s / w)) as (x & y & -> & E1 & E2).
  { replace (a / v * (d / w) - b / v * (c / w)) with ((a * d - b * c) * / (v * w)) by (field; lra). apply Rmult_integral_contrapositive_currified; [exact H|]. apply Rinv_neq_0_compat. nra. }
  assert (F1 : a * x + b * y = r). { apply (Rmult_eq_reg_r (/ v)); [|apply Rinv_neq_0_compat; lra]. unfold Rdiv in E1. rewrite <- E1. ring. }
  assert (F2 : c * x + d * y = s). { apply (Rmult_eq_reg_r (/ w)); [|apply Rinv_neq_0_compat; lra]. unfold Rdiv in E2. rewrite <- E2. ring. }
  cbn [nth]. unfold pinned. cbn [length seq filter nth]. unfold Reqb.
  destruct (Req_EM_T c 0) as [Ec|Ec], (Req_EM_T d 0) as [Ed|Ed]; cbn [negb nth set_nth].
  - exists x, y. auto.
  - subst c. exists x, y. split; [|auto]. do 2 f_equal. apply (Rmult_eq_reg_l d); [|exact Ed]. rewrite <- F2. field. exact Ed.
  - subst d. exists x, y. split; [|auto]. f_equal. apply (Rmult_eq_reg_l c); [|exact Ec]. rewrite <- F2. field. exact Ec.
  - exists x, y. auto.
Qed.

(** ** A bar pulled in three increments, in kN and in N *)
Lemma ten3 : ten 3 = 1000.
Proof. unfold ten, powerRZ. change (Pos.to_nat 3) with 3%nat. cbn [pow]. lra. Qed.

Example C68_meets : exists m1 m2 out u a,
  build argsort_ins (bar_model 1 (V3 0 2 3) 2 3000 2 1000 (rescaled_settings 3 (ex_settings (-1) 3))) = Ok m1 /\
  play sort2 careful [ARun 1] m1 = Ok (m2, out) /\ m_built m2 = Some u /\ nth_error (u_R u) 3 = Some a /\
  a_lpf a = -9/4 /\ a_U a = [vzero; V3 0 (-3/4) 0] /\ a_force a = [-2250].
Proof.
  assert (Hinv : forall m, (1 <= m <= Z.to_nat 3)%nat ->
    - (2) < fst (point (3 * 2 / 2) 0 1 (-1) (INR m * (comp (-1) (s_du (ex_settings (-1) 3)) (s_dlpf (ex_settings (-1) 3)) * IZR (Z.sgn (-1)))))).
  { intros m Hm. change (Z.to_nat 3) with 3%nat in Hm. assert (0 <= INR m <= 3).
    { split; [apply pos_INR|]. replace 3 with (INR 3) by (cbn; lra). apply le_INR. lia. }
    cbn. numR. lra. }
  destruct (C41_session argsort_ins sort2 careful 1 (V3 0 2 3) 2 3 2 1 (ex_settings (-1) 3) (-1) 3 0 0
    argsort_ins_ok sort2_ok careful_exact2 ltac:(lia) ltac:(lra) eq_refl eq_refl eq_refl eq_refl eq_refl ltac:(lia) eq_refl
    ltac:(cbn; lia) ltac:(cbn; lra) ltac:(cbn; lia) ltac:(left; split; [reflexivity|lra]) ltac:(cbn; lra) Hinv) as (m1 & m2 & out & u2 & E1 & E2 & E3 & E4 & E5 & E6).
  destruct (E6 3%nat) as (a & u & lam & A1 & A2 & A3 & A4 & A5 & A6); [change (Z.to_nat 3) with 3%nat; lia|].
  cbn in A3. assert (Eu : u = -3/4) by lra. assert (El : lam = -9/4) by lra. rewrite Eu in A4, A6. rewrite El in A5.
  destruct C68_solver as [S1 S2].
  assert (HM : rescaled_model 3 (bar_model 1 (V3 0 2 3) 2 3 2 1 (ex_settings (-1) 3)) (bar_model 1 (V3 0 2 3) 2 3000 2 1000 (rescaled_settings 3 (ex_settings (-1) 3)))).
  { unfold rescaled_model. rewrite ten3.
    split; [reflexivity|]. split; [reflexivity|]. split; [|split; [|reflexivity]]; cbn; unfold rescaled_elems, rescaled_forces; cbn; repeat (f_equal; try lra). }
  destruct (C68_rescaled 3 argsort_ins sort2 careful _ _ _ S1 S2 E1 HM) as (m1' & B & _ & P).
  assert (Hp : play sort2 careful [ARun 1] m1 = Ok (m2, out ++ [])) by (cbn [play]; rewrite E2; reflexivity).
  destruct (P _ _ _ Hp) as (m2' & P' & v & v' & V1 & V2 & HF & _). rewrite E3 in V1. injection V1 as <-.
  assert (Hn : forall k (l l' : list (analysis R)) x, Forall2 (rescaled_result (ten 3)) l l' -> nth_error l k = Some x -> exists y, nth_error l' k = Some y /\ rescaled_result (ten 3) x y).
  { clear. intros k l l' x H. revert k. induction H as [|b b' l l' Hb H IH]; intros [|k] E; cbn in E; try discriminate; [injection E as <-; cbn; eauto|cbn; eauto]. }
  destruct (Hn _ _ _ _ HF A1) as (a' & Ea' & (_ & _ & _ & EU & _ & _ & _ & Elp & _ & _ & _ & _ & _ & _ & _ & _ & Efo & _)).
  exists m1', m2', (out ++ []), v', a'. split; [exact B|]. split; [exact P'|]. split; [exact V2|]. split; [exact Ea'|].
  rewrite Elp, A5, EU, A4, Efo, A6. split; [reflexivity|]. split; [reflexivity|]. cbn [map]. f_equal. rewrite ten3. lra.
Qed.
