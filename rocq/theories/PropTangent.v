(** * C73 the stiffness matrix stored with a result

    Vocabulary: SpecTangent.v, SpecRun.v, SpecMech.v, SpecMechR.v. *)
From Coq Require Import List ZArith Bool Arith Lia Reals Lra.
Import ListNotations.
From Verif Require Import Num NumR TolFacts Vec Handlers Material Analysis Truss Equil Solver Run ListFacts SpecMech SpecMechR SpecState
  SpecBuild SpecSolver SpecRun SpecRunR RunFacts FrameFacts EvalFacts RecFacts RunProps StiffFacts SpecTangent TangentRun EditFacts NumFix ExRun PropMech PropRun.

(** The matrices stored with every converged result were evaluated at a point less
    than xtol away from the recorded one, with the state variables before the
    increment; the extended matrix has the reference load of the step as last column
    and the unit row of the recorded control component as last row.  Any arithmetic. *)
Theorem C73_stored : forall F (NF : Num F) argsortZ argsortF solve P m ns ms bs fs m1 fuel m2 out logs,
  argsort_ok argsortZ -> described m ns ms bs fs -> session argsortF solve argsortZ P m m1 ->
  ran_as argsortF solve m1 fuel m2 out logs ->
  (forall u, m_built m1 = Some u -> (1 <= u_ndof1 u)%nat) ->
  exists u1 nh eh, m_built m1 = Some u1 /\ m_nodes m1 = Some nh /\ m_elems m1 = Some eh /\
  forall lg, In lg logs -> exists recs, good_part lg recs /\
    along (fun x0 a0 x a =>
             (exists y b b', stiffness_from (ctx_of m1 u1 nh eh) ms (pow10neg (s_xtol (m_set m1))) a0 x a y b b') /\
             extends a (S (u_ndof1 u1)))
          (a_Ured (lg_start lg) ++ [f0]) (lg_start lg) recs.
Proof.
  intros F NF argsortZ argsortF solve P m ns ms bs fs m1 fuel m2 out logs HA Hd HS HL H1.
  destruct (records_stiff argsortZ argsortF solve _ _ _ _ _ _ _ _ _ _ _ HA Hd HS HL H1)
    as (u1 & nh & eh & E1 & E2 & E3 & _ & _ & H).
  exists u1, nh, eh. do 3 (split; [assumption|]). intros lg Hin.
  destruct (H lg Hin) as (recs & Hg & Hal). exists recs. split; [exact Hg|]. eapply along_mono; [|exact Hal]. cbv beta.
  intros x0 a0 x a (_ & Hx & _ & _ & y & b & b' & S1 & S2 & _). rewrite <- Hx. split; [eauto|exact S2].
Qed.
Print Assumptions C73_stored.

Local Open Scope R_scope.

(** In exact arithmetic: the stored matrix is symmetric, and entry (i, k) is the
    derivative of minus the i-th out-of-balance force by the k-th unknown, at a point
    [y] less than xtol away from the recorded one and with the state variables before
    the increment, unless there a bar has length zero or a material is at a kink. *)
Theorem C73_tangent : forall argsortZ argsortF solve P m ns ms bs fs m1 fuel m2 out logs,
  argsort_ok argsortZ -> described m ns ms bs fs -> session argsortF solve argsortZ P m m1 ->
  ran_as argsortF solve m1 fuel m2 out logs ->
  (forall u, m_built m1 = Some u -> (1 <= u_ndof1 u)%nat) ->
  exists u1 nh eh, m_built m1 = Some u1 /\ m_nodes m1 = Some nh /\ m_elems m1 = Some eh /\
  let c := ctx_of m1 u1 nh eh in
  forall lg, In lg logs -> exists recs, good_part lg recs /\
    along (fun x0 a0 x a => exists y dx U b,
             length y = length x /\ euclid dx < powerRZ 10 (- s_xtol (m_set m1)) /\ (x = y \/ bcast2 Rplus y dx = Ok x) /\
             gather (vflat U) (a_DOF1 a0) = Ok (removelast y) /\
             (forall k, ~ In k (a_DOF1 a0) -> nth_error (vflat U) k = nth_error (vflat (a_U a0)) k) /\
             same_setup a0 b /\ a_state b = a_state a0 /\
             (forall i k, (i < u_ndof1 u1)%nat -> (k < u_ndof1 u1)%nat ->
                nth k (nth i (a_Kred a) []) 0 = nth i (nth k (a_Kred a) []) 0) /\
             (forall l t, In l (c_labels c) ->
                vsum (map (fun l' => mvec (K_block c (a_K a) l l') t) (c_labels c)) = vzero) /\
             (regular c ms a0 U -> forall i k lam, (i < u_ndof1 u1)%nat -> (k < u_ndof1 u1)%nat ->
                derivable_pt_lim
                  (fun t => - nth i (value (equilibrium c (set_nth k t (removelast y) ++ [lam]) x0 false b)) 0)
                  (nth k (removelast y) 0) (nth k (nth i (a_Kred a) []) 0)))
          (a_Ured (lg_start lg) ++ [0]) (lg_start lg) recs.
Proof.
  intros argsortZ argsortF solve P m ns ms bs fs m1 fuel m2 out logs HA Hd HS HL H1.
  destruct (records_stiff argsortZ argsortF solve _ _ _ _ _ _ _ _ _ _ _ HA Hd HS HL H1)
    as (u1 & nh & eh & E1 & E2 & E3 & Htr & Hlab & H).
  exists u1, nh, eh. do 3 (split; [assumption|]). cbv zeta. set (c := ctx_of m1 u1 nh eh) in *. intros lg Hin.
  specialize (H1 _ E1).
  destruct (H lg Hin) as (recs & Hg & Hal). exists recs. split; [exact Hg|]. eapply along_mono; [|exact Hal]. cbv beta.
  intros x0 a0 x a (Hsh & Hx & Hx0 & Hsz & y & b & b' & (B1 & B2 & B3 & B4 & B5 & B6 & dx & B7 & B8) & _ & w & s1 & s2 & fv & He & Ss1 & Zs1).
  assert (Hu : length (removelast y) = c_ndof1 c).
  { change (c_ndof1 c) with (u_ndof1 u1). rewrite removelast_firstn_len, firstn_length. lia. }
  assert (En : length (a_DOF1 b) = u_ndof1 u1) by (destruct B3 as (_ & _ & _ & _ & _ & _ & _ & _ & _ & _ & E & _); rewrite <- E; reflexivity).
  destruct (stiffness_symmetric _ _ _ _ _ _ Htr B3 B5) as (_ & Ksym & Ktr). rewrite En in Ksym.
  pose proof (stiffness_parts _ _ _ _ _ B5) as (U & U0 & a2 & SU & _ & Hl & _ & Eb).
  assert (EU : a_U b' = U).
  { apply elem_loop_frame in Hl. destruct Hl as ((F1 & _) & _). rewrite Eb. cbn. exact F1. }
  pose proof B1 as (_ & _ & HD & _ & Hfc & Hfo & _ & _ & HUk & _).
  assert (Hex : ext_disp c (removelast y) = removelast y).
  { unfold ext_disp. destruct (Nat.ltb_spec (c_ndof1 c) (length (removelast y))); [lia|reflexivity]. }
  rewrite Hex in SU.
  exists y, dx, U, b. split; [exact B4|]. split; [rewrite <- pow10neg_R; apply Rltb_true; exact B7|]. split; [exact B8|]. split.
  { rewrite <- HD. eapply gather_scatter; [|  |exact SU]; [apply B3|]. rewrite Hu, En. reflexivity. }
  split.
  { intros k Hk. rewrite <- HD in Hk. rewrite (scatter_frame _ _ _ _ k SU Hk). apply HUk. rewrite <- HD. exact Hk. }
  split; [exact B1|]. split; [exact B2|]. split; [exact Ksym|].
  split; [rewrite B6; exact Ktr|].
  intros Hreg i k lam Hi Hk.
  assert (Hlo : loads_ok c b).
  { destruct (shape_same _ _ Ss1 Hsh) as [Sh1 Sh2].
    pose proof (equilibrium_parts _ _ _ _ _ _ _ He) as (Ua & U0a & s3 & _ & _ & Hl3 & (q1 & R1 & R2) & _ & E4).
    pose proof (elem_loop_frame _ _ _ _ _ _ _ Hl3) as (Fx & _).
    pose proof (gequilibrium_sizes _ _ _ _ _ _ _ _ Htr Zs1 He) as Z2.
    assert (Er : length (a_r s3) = length (c_labels c)).
    { rewrite E4 in Z2. apply Z2. }
    assert (E5 : a_fconst s3 = a_fconst s1 /\ a_forces s3 = a_forces s1) by (unfold efix in Fx; cbn in Fx; tauto).
    destruct E5 as [E5 E6]. rewrite E5 in R1. rewrite E6 in R2.
    destruct Ss1 as (_ & _ & _ & _ & Gc & Go & _). unfold loads_ok. rewrite Hfc, Hfo, <- Gc, <- Go.
    apply bcast2_map2 in R1; [|rewrite map_length, vflat_len; lia|exact Sh1]. destruct R1 as [L1 ->].
    rewrite map_length, vflat_len, Er in L1.
    apply bcast2_map2 in R2; [|rewrite map2_len; rewrite map_length, vflat_len; lia|rewrite map_length; exact Sh2].
    destruct R2 as [L2 _]. rewrite map2_len, !map_length, vflat_len in L2 by (rewrite map_length, vflat_len; lia). lia. }
  refine (proj2 (C19_stiffness_is_tangent c ms (removelast y) lam x0 false b b' _ Htr B3 Hlo Hu Hx0 B5 _) i k Hi Hk).
  rewrite EU. intros q mb Hq. specialize (Hreg q mb Hq). unfold state_row in *. rewrite B2. exact Hreg.
Qed.
Print Assumptions C73_tangent.

(** The stored matrix is not in general the one at the recorded point: in a run
    without ERROR line the result [a] after [a0] holds another matrix than the
    stiffness at its own displacements. *)
Theorem C73_recorded_point_refuted : exists st m1 m2 out u2 nh eh pre a0 a rest b K,
  described (xr_at st) xr_ns xr_ms xr_bs xr_fs /\
  build argsort_ins (xr_at st) = Ok m1 /\ run argsort_fx gauss m1 40 = Ok (m2, out) /\
  (forall e, In e out -> ~ error_line e) /\
  m_built m2 = Some u2 /\ m_nodes m1 = Some nh /\ m_elems m1 = Some eh /\
  u_R u2 = pre ++ a0 :: a :: rest /\
  stiffness (ctx_of m1 u2 nh eh) (a_Ured a) a0 = Ok (b, K) /\ K <> a_Kred a.
Proof.
  pose (eqK := eq_list (eq_list eq_fix)).
  pose (test := fun (m1 m2 : model fix_) (out : list msg) =>
    forallb (fun e => match e with MIncr => true | MRecycle => true | _ => false end) out &&
    on_built false (fun u => match u_R u, m_nodes m1, m_elems m1 with
      | r0 :: a0 :: a :: _, Some nh, Some eh =>
          match stiffness (ctx_of m1 u nh eh) (a_Ured a) a0 with
          | Ok (_, K) => negb (eqK K (a_Kred a)) | _ => false end
      | _, _, _ => false end) m2).
  destruct (xr_tested (xr_settings 4 1 false false None 8 3 2) test) as (m1 & m2 & out & Hb & Hr & Ht);
    [vm_compute; reflexivity|].
  unfold test, on_built in Ht. destruct (m_built m2) as [u|] eqn:Eu; [|rewrite andb_false_r in Ht; discriminate].
  destruct (u_R u) as [|r0 [|a0 [|a R]]] eqn:ER; try (rewrite andb_false_r in Ht; discriminate).
  destruct (m_nodes m1) as [nh|] eqn:En; [|rewrite andb_false_r in Ht; discriminate].
  destruct (m_elems m1) as [eh|] eqn:Ee; [|rewrite andb_false_r in Ht; discriminate].
  destruct (stiffness (ctx_of m1 u nh eh) (a_Ured a) a0) as [[b K]| |] eqn:Es; try (rewrite andb_false_r in Ht; discriminate).
  rewrite !andb_true_iff, negb_true_iff in Ht. destruct Ht as (Ho & Hne).
  exists (xr_settings 4 1 false false None 8 3 2), m1, m2, out, u, nh, eh, [r0], a0, a, R, b, K.
  repeat match goal with |- _ /\ _ => split end; auto.
  - apply xr_described.
  - intros e He. rewrite forallb_forall in Ho. specialize (Ho e He). destruct e; try discriminate; intros [E|E]; discriminate.
  - intros ->. assert (T : eqK (a_Kred a) (a_Kred a) = true); [|congruence].
    unfold eqK. clear. assert (R : forall l, eq_list eq_fix l l = true).
    { induction l as [|x l IH]; cbn; auto. rewrite IH, andb_true_r. apply eq_fix_ok. reflexivity. }
    induction (a_Kred a) as [|r l IH]; cbn; auto. rewrite R, IH. reflexivity.
Qed.
Print Assumptions C73_recorded_point_refuted.

(** The hypotheses of C73_stored: two steps of three increments, two unknowns, and
    the stored matrix has a nonzero entry outside the diagonal. *)
Example C73_meets : exists m1 m2 out u1 u2 a,
  argsort_ok argsort_ins /\
  described (xr_at (xr_settings 8 8 false false None 8 3 2)) xr_ns xr_ms xr_bs xr_fs /\
  session argsort_fx gauss argsort_ins (fun _ => True) (xr_at (xr_settings 8 8 false false None 8 3 2)) m1 /\
  (exists logs, ran_as argsort_fx gauss m1 40 m2 out logs) /\
  m_built m1 = Some u1 /\ u_ndof1 u1 = 2%nat /\ m_built m2 = Some u2 /\ In a (u_R u2) /\
  nth 1 (nth 0 (a_Kred a) []) f0 <> f0.
Proof.
  pose (test := fun (m1 m2 : model fix_) (out : list msg) =>
    on_built false (fun u => Nat.eqb (u_ndof1 u) 2) m1 && (0 <? s_nsteps (m_set m1))%Z &&
    on_built false (fun u => existsb (fun a => negb (eq_fix (nth 1 (nth 0 (a_Kred a) []) f0) f0)) (u_R u)) m2).
  destruct (xr_tested (xr_settings 8 8 false false None 8 3 2) test) as (m1 & m2 & out & Hb & Hr & Ht);
    [vm_compute; reflexivity|].
  unfold test, on_built in Ht. rewrite !andb_true_iff, Z.ltb_lt in Ht. destruct Ht as ((Hn & Hs) & Ht).
  destruct (m_built m1) as [u1|] eqn:Eu1; [|discriminate]. destruct (m_built m2) as [u2|] eqn:Eu; [|discriminate].
  apply Nat.eqb_eq in Hn. apply existsb_exists in Ht. destruct Ht as (a & Ha & Ht). apply negb_true_iff in Ht.
  exists m1, m2, out, u1, u2, a.
  repeat match goal with |- _ /\ _ => split end; auto.
  - apply argsort_ins_ok.
  - apply xr_described.
  - apply s_build. exact Hb.
  - eapply run_ran_as; eassumption.
  - intros E. apply eq_fix_ok in E. congruence.
Qed.
