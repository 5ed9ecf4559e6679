(** * C58: nodal balance of the reported member forces, rounding included *)
From Coq Require Import List ZArith Bool Arith Lia Reals Lra SpecFloat.
From Flocq Require Import Core.
Import ListNotations.
From Verif Require Import Num Vec Handlers Material Analysis Truss Equil Solver Run SpecMech SpecSolver SpecState FrameFacts SpecBuild SpecRun
  RunFacts EvalFacts RecFacts ReachFacts SessionFacts RunProps EditFacts NumR SpecMechR Double SpecDouble DoubleFacts SpecRound Binary64
  SpecBalance64 Balance64Facts SpecNode64 Node64Facts PropBalance64 ExRun NumFix.

(** At each active DOF of a node the reported normal forces of its members, each
    along the exact unit vector of the displaced member, balance the load of the
    result.  The errors of all roundings are bounded in terms of the member forces,
    of the number of members at the node and of [K], how much shorter a member is than
    the coordinates of its ends. *)
Theorem C58_nodes : forall argsortZ (argsortF : list b64 -> list nat) solve P m ns ms bs fs m1 fuel m2 out logs,
  argsort_ok argsortZ -> described m ns ms bs fs -> session argsortF solve argsortZ P m m1 ->
  ran_as argsortF solve m1 fuel m2 out logs ->
  (forall u, m_built m1 = Some u -> (1 <= u_ndof1 u)%nat) ->
  (0 <= s_ftol (m_set m1))%Z ->
  exists nh, m_nodes m1 = Some nh /\
  forall lg, In lg logs -> exists recs, good_part lg recs /\
    along (fun x0 a0 x a =>
             (forall p l d K, nth_error (n_labels nh) p = Some l -> (d < 3)%nat -> In (3 * p + d)%nat (a_DOF1 a) ->
                (1 <= K)%R -> (INR (length (members_at l (combine ms (a_force a)))) + K <= powerRZ 2 30)%R ->
                fair (n_labels nh) (n_coords nh) (a_U a) l K ms ->
                node_balance (s_ftol (m_set m1)) K (n_labels nh) (n_coords nh) ms a l d
                  (real (nth (3 * p + d) (concat (a_fconst a)) f0)) (real (nth (3 * p + d) (concat (a_forces a)) f0))) \/
             (s_jpre (m_set m1) = true /\ s_jfixed (m_set m1) = false /\ x = x0))
          (a_Ured (lg_start lg) ++ [f0]) (lg_start lg) recs.
Proof.
  intros argsortZ argsortF solve P m ns ms bs fs m1 fuel m2 out logs HA Hd HS Hran H1 Hn.
  destruct (session_logs _ _ _ _ _ _ _ _ _ _ _ _ _ _ HA Hd HS Hran)
    as (c & D0 & D1 & w & u1 & Htr & Hlab & Eu & Hnd & _ & (nh & eh & En & Ee & Ec) & _ & fh & _ & _ & _ & Hlogs).
  specialize (H1 _ Eu). exists nh. split; [exact En|].
  intros lg Hin. apply In_nth_error in Hin. destruct Hin as [k Hk].
  destruct (Hlogs _ _ Hk) as ((Hr & Hl & Hrecs & _) & Hrn & Hsh & _).
  assert (El : length (a_Ured (lg_start lg) ++ [f0]) = S (c_ndof1 c)) by (rewrite app_length, (Hl ltac:(lia)); cbn; lia).
  apply step_kinds in Hrn. destruct Hrn as (incs & xl & recs & Hg & Hal & _). cbv zeta in *.
  exists recs. split; [exact Hg|].
  eapply (along_impl _ _ (fun x a => reached c ms D0 D1 a /\ length x = S (c_ndof1 c) /\ loads_shape a)) in Hal.
  - apply Hal.
  - split; [exact Hr|]. split; [exact El|exact Hsh].
  - intros x0 a0 x a (Hr0 & Hx0 & Hs0) Hk2.
    assert (Hka : kany solve c (pf_config (m_set m1) xl incs) (s_jpre (m_set m1)) x0 a0 x a) by (unfold kany; tauto).
    assert (Hra : reached c ms D0 D1 a) by (eapply reached_kind; eassumption).
    assert (Lx : length x = S (c_ndof1 c)) by (rewrite (kany_length _ _ _ _ _ _ _ _ Hka); lia).
    split.
    + split; [exact Hra|]. split; [exact Lx|].
      eapply shape_same; [eapply kany_same, Hka|exact Hs0].
    + destruct Hk2 as [Hk2|Hk2]; [left|right].
      * pose proof Hr0 as (Hsz & _).
        destruct (kacc_balance _ c _ ms x0 a0 x a Htr Hlab Hsz Hs0 Hx0 ltac:(lia) Hk2) as [B1 B2].
        destruct (kacc_eval _ c _ ms x0 a0 x a Htr Hsz Hk2) as (an1 & an2 & gr & E1 & _ & _ & E3 & E4).
        replace (n_labels nh) with (c_labels c) by (rewrite Ec; reflexivity).
        replace (n_coords nh) with (c_coords c) by (rewrite Ec; reflexivity).
        intros. eapply node_record; try eassumption; [apply Hra|exists an1, an2, gr; auto].
      * pose proof Hk2 as (Hj & Hf & _). apply kskp_same in Hk2. tauto.
Qed.
Print Assumptions C58_nodes.

(** ** A run evaluated by the kernel *)
Definition sf_eqb (a b : double) : bool :=
  match a, b with
  | S754_zero s, S754_zero t => Bool.eqb s t
  | S754_infinity s, S754_infinity t => Bool.eqb s t
  | S754_nan, S754_nan => true
  | S754_finite s m e, S754_finite t n f => Bool.eqb s t && Pos.eqb m n && Z.eqb e f
  | _, _ => false
  end.
Lemma sf_eqb_eq a b : sf_eqb a b = true -> a = b.
Proof.
  destruct a, b; cbn; try discriminate; try (intros; now f_equal; apply eqb_prop).
  - reflexivity.
  - rewrite !andb_true_iff. intros [[H1 H2] H3]. apply eqb_prop in H1. apply Pos.eqb_eq in H2. apply Z.eqb_eq in H3. now subst.
Qed.
Fixpoint rows_are (l : list (v3 b64)) (r : list (v3 double)) : bool :=
  match l, r with
  | [], [] => true
  | v :: l, w :: r => sf_eqb (sf (vx v)) (vx w) && sf_eqb (sf (vy v)) (vy w) && sf_eqb (sf (vz v)) (vz w) && rows_are l r
  | _, _ => false
  end.
Lemma rows_are_eq : forall l r, rows_are l r = true -> map (vmap sf) l = r.
Proof.
  induction l as [|[x y z] l IH]; intros [|[x' y' z'] r]; cbn [rows_are map vmap vx vy vz]; try discriminate; [reflexivity|].
  rewrite !andb_true_iff. intros [[[H1 H2] H3] H4]. apply sf_eqb_eq in H1, H2, H3. apply IH in H4.
  unfold vmap at 1. cbn [vx vy vz]. now rewrite H1, H2, H3, H4.
Qed.

Lemma val_3 : val (S754_finite false 6755399441055744 (-51)) = 3%R.
Proof. cbn [val]. rewrite pw. change (bpow radix2 (-51)) with (/ 2251799813685248)%R. lra. Qed.
Lemma val_4 : val (S754_finite false 4503599627370496 (-50)) = 4%R.
Proof. cbn [val]. rewrite pw. change (bpow radix2 (-50)) with (/ 1125899906842624)%R. lra. Qed.
Lemma val_8 : val (S754_finite false 4503599627370496 (-49)) = 8%R.
Proof. cbn [val]. rewrite pw. change (bpow radix2 (-49)) with (/ 562949953421312)%R. lra. Qed.
Lemma val_u : (0 <= val (S754_finite false 4545907841938262 (-54)) <= / 2)%R.
Proof. cbn [val]. rewrite pw. change (bpow radix2 (-54)) with (/ 18014398509481984)%R. lra. Qed.
Lemma val_v : (- / 2 <= val (S754_finite true 6289392197606474 (-55)) <= 0)%R.
Proof. cbn [val]. rewrite pw. change (bpow radix2 (-55)) with (/ 36028797018963968)%R. lra. Qed.
Lemma long_enough (v : v3 R) s : (3 <= vy v)%R -> (s <= 36)%R -> (powerRZ 2 (-399) <= len v)%R /\ (s <= 12 * len v)%R.
Proof.
  intros H1 H2. assert (L : (3 <= len v)%R).
  { unfold len. apply Rle_trans with (sqrt (3 * 3)); [rewrite sqrt_square; lra|]. apply sqrt_le_1_alt. nra. }
  split; [|lra]. rewrite pw. apply Rle_trans with (bpow radix2 0); [apply bpow_le; lia|cbn; lra].
Qed.

(** Node 2 of the run of [C58_meets], at [(3, 4, 0)] and displaced to about
    [(3.25, 3.83, 0)], with two members that carry forces: the result of the last
    increment meets the hypotheses with [K = 12]. *)
Example C58_nodes_meets : let st := xr_settings 8 8 false false None 8 3 2 in
  exists m1 m2 out logs u1 u2 nh a,
  argsort_ok argsort_ins /\ described (xr_at st) (xr_ns (F:=b64)) xr_ms xr_bs xr_fs /\
  session argsort_b gauss argsort_ins (fun _ => True) (xr_at st) m1 /\
  ran_as argsort_b gauss m1 40 m2 out logs /\
  m_built m1 = Some u1 /\ u_ndof1 u1 = 2%nat /\ s_ftol (m_set m1) = 8%Z /\
  m_built m2 = Some u2 /\ nth_error (u_R u2) 6 = Some a /\ m_nodes m1 = Some nh /\
  nth_error (n_labels nh) 1 = Some 2%Z /\ In (3 * 1 + 0)%nat (a_DOF1 a) /\ In (3 * 1 + 1)%nat (a_DOF1 a) /\
  length (members_at 2 (combine xr_ms (a_force a))) = 2%nat /\
  fair (n_labels nh) (n_coords nh) (a_U a) 2 12 xr_ms /\
  Forall nonzero (a_force a) /\ (forall e, In e out -> ~ error_line e).
Proof.
  intros st.
  pose (nz := fun x : b64 => match sf x with S754_finite _ _ _ => true | _ => false end).
  pose (X := [V3 (S754_zero false) (S754_zero false) (S754_zero false);
              V3 (S754_finite false 6755399441055744 (-51)) (S754_finite false 4503599627370496 (-50)) (S754_zero false);
              V3 (S754_finite false 6755399441055744 (-51)) (S754_finite false 4503599627370496 (-49)) (S754_zero false)] : list (v3 double)).
  pose (U := [V3 (S754_zero false) (S754_zero false) (S754_zero false);
              V3 (S754_finite false 4545907841938262 (-54)) (S754_finite true 6289392197606474 (-55)) (S754_zero false);
              V3 (S754_zero false) (S754_zero false) (S754_zero false)] : list (v3 double)).
  pose (test := fun (m1 m2 : model b64) (out : list msg) =>
    match m_built m1, m_built m2, m_nodes m1 with
    | Some u1, Some u2, Some nh =>
      forallb (fun e => match e with MIncr => true | MRecycle => true | _ => false end) out &&
      (u_ndof1 u1 =? 2)%nat && (0 <? s_nsteps (m_set m1))%Z && (s_ftol (m_set m1) =? 8)%Z &&
      match n_labels nh with [1; 2; 5]%Z => true | _ => false end && rows_are (n_coords nh) X &&
      match nth_error (u_R u2) 6 with
      | Some a => rows_are (a_U a) U && forallb nz (a_force a) && match a_DOF1 a with [3; 4]%nat => true | _ => false end &&
                  (length (members_at 2 (combine xr_ms (a_force a))) =? 2)%nat
      | None => false
      end
    | _, _, _ => false
    end).
  assert (T : match build argsort_ins (xr_at st) with
              | Ok m1 => match run argsort_b gauss m1 40 with Ok (m2, out) => test m1 m2 out | _ => false end
              | _ => false end = true) by (vm_cast_no_check (eq_refl true)).
  destruct (build _ _) as [m1| |] eqn:Hb; try discriminate.
  destruct (run _ _ _ _) as [[m2 out]| |] eqn:Hr; try discriminate.
  unfold test in T. destruct (m_built m1) as [u1|] eqn:E1; try discriminate. destruct (m_built m2) as [u2|] eqn:E2; try discriminate.
  destruct (m_nodes m1) as [nh|] eqn:En; try discriminate.
  rewrite !andb_true_iff, !Nat.eqb_eq, Z.ltb_lt, Z.eqb_eq in T. destruct T as ((((((H1 & H2) & H3) & H4) & H5) & H6) & H7).
  destruct (nth_error (u_R u2) 6) as [a|] eqn:Ea; try discriminate. rewrite !andb_true_iff, Nat.eqb_eq in H7.
  destruct H7 as (((H7 & H8) & H9) & H10). apply rows_are_eq in H6, H7.
  assert (El : n_labels nh = [1; 2; 5]%Z).
  { clear - H5. destruct (n_labels nh) as [|a [|b [|c [|]]]]; try discriminate H5;
      repeat match type of H5 with context[match ?z with _ => _ end] => is_var z; destruct z; try discriminate H5 end; try reflexivity. }
  assert (ED : a_DOF1 a = [3; 4]%nat).
  { clear - H9. destruct (a_DOF1 a) as [|x [|y [|]]]; try discriminate H9;
      repeat match type of H9 with context[match ?z with _ => _ end] => is_var z; destruct z; try discriminate H9 end; reflexivity. }
  assert (N : forall x, nz x = true -> nonzero x) by (intros [[?|?| |? ? ?] ?]; cbn; intros; try discriminate; exact I).
  destruct (run_ran_as _ _ _ _ _ _ Hr H3) as [logs HL].
  exists m1, m2, out, logs, u1, u2, nh, a. split; [apply argsort_ins_ok|]. split; [apply xr_described|].
  split; [constructor; exact Hb|]. split; [exact HL|].
  do 6 (split; [assumption|]). rewrite El, ED. split; [reflexivity|]. split; [now left|]. split; [right; now left|]. split; [assumption|].
  split; [|split].
  2: { rewrite Forall_forall. rewrite forallb_forall in H8. auto. }
  2: { intros e He. rewrite forallb_forall in H1. specialize (H1 e He). destruct e; try discriminate; intros [E|E]; discriminate. }
  destruct (n_coords nh) as [|[x1 y1 z1] [|[x2 y2 z2] [|[x3 y3 z3] [|]]]]; try discriminate H6.
  destruct (a_U a) as [|[u1' v1 w1] [|[u2' v2 w2] [|[u3 v3' w3] [|]]]]; try discriminate H7.
  cbn in H6, H7. injection H6 as A1 A2 A3 A4 A5 A6 A7 A8 A9. injection H7 as B1 B2 B3 B4 B5 B6 B7 B8 B9.
  pose proof val_3 as V3. pose proof val_4 as V4. pose proof val_8 as V8. pose proof val_u as Vu. pose proof val_v as Vv.
  set (U0 := val (S754_finite false 4545907841938262 (-54))) in *. set (U1 := val (S754_finite true 6289392197606474 (-55))) in *.
  intros m [<-|[<-|[]]] _; apply long_enough; unfold reach, span, size1, at_node; cbn [mb_a mb_b row_of Z.eqb Pos.eqb vmap vx vy vz];
    cbn [vadd vsub vmap2 vx vy vz fadd fsub NumR]; unfold vmap; cbn [vx vy vz]; unfold real;
    rewrite ?A1, ?A2, ?A3, ?A4, ?A5, ?A6, ?A7, ?A8, ?A9, ?B1, ?B2, ?B3, ?B4, ?B5, ?B6, ?B7, ?B8, ?B9;
    fold U0 U1; rewrite ?V3, ?V4, ?V8; cbn [val]; rewrite ?Rabs_R0; try lra;
    rewrite ?(Rabs_pos_eq U0), ?(Rabs_left1 U1), ?(Rabs_pos_eq 3), ?(Rabs_pos_eq 4), ?(Rabs_pos_eq 8) by lra; lra.
Qed.
