(** * What a finite result tells of the operands *)
From Coq Require Import List ZArith Bool Arith Lia SpecFloat.
Import ListNotations.
From Verif Require Import Num Vec Handlers Material Analysis Truss Equil Solver Run ListFacts SpecMech EquilFacts
  SpecSolver SolverFacts PathFacts SpecState FrameFacts SpecRun RunFacts EvalFacts RecFacts ReachFacts SessionFacts RunProps
  SpecBuild Double SpecDouble.

Lemma fin_add (a b : double) : finite (fadd a b) -> finite a /\ finite b.
Proof. destruct a as [sa|sa| |sa ma ea], b as [sb|sb| |sb mb eb]; cbn; try destruct sa; try destruct sb; cbn; tauto. Qed.
Lemma fin_sub (a b : double) : finite (fsub a b) -> finite a /\ finite b.
Proof. destruct a as [sa|sa| |sa ma ea], b as [sb|sb| |sb mb eb]; cbn; try destruct sa; try destruct sb; cbn; tauto. Qed.
Lemma fin_mul (a b : double) : finite (fmul a b) -> finite a /\ finite b.
Proof. destruct a as [sa|sa| |sa ma ea], b as [sb|sb| |sb mb eb]; cbn; tauto. Qed.
Lemma fin_div (a b : double) : finite (fdiv a b) -> finite a.
Proof. destruct a as [sa|sa| |sa ma ea], b as [sb|sb| |sb mb eb]; cbn; tauto. Qed.
Lemma fin_opp (a : double) : finite (fopp a) <-> finite a.
Proof. destruct a; cbn; tauto. Qed.
Lemma fin_abs (a : double) : finite (fabs a) <-> finite a.
Proof. destruct a; cbn; tauto. Qed.
Lemma fin_sqrt (a : double) : finite (fsqrt a) -> finite a.
Proof. destruct a as [s|[]| |s m e]; cbn; tauto. Qed.
Lemma fin_le (a b : double) : finite b -> fleb (fabs a) b = true -> finite a.
Proof. destruct a as [s|s| |s m e], b as [s'|s'| |s' m' e']; cbn; intros H; tauto || discriminate. Qed.

(** A square root below anything is a number: it is never minus infinity. *)
Lemma fin_sqrt_lt (a t : double) : fltb (fsqrt a) t = true -> finite (fsqrt a).
Proof.
  destruct a as [s|[]| |[] m e]; cbn [fsqrt fltb NumDouble SFsqrt]; try exact (fun _ => I); try discriminate.
  - destruct t as [?|[]| |]; discriminate.
  - destruct (SFsqrt_core_binary 53 1024 (Zpos m) e) as [[mz ez] lz].
    unfold binary_round_aux. destruct (shr_fexp 53 1024 mz ez lz) as [mrs e1].
    destruct (shr_fexp 53 1024 (round_nearest_even (shr_m mrs) (loc_of_shr_record mrs)) e1 loc_Exact) as [mrs' e2].
    destruct (shr_m mrs'); [exact (fun _ => I)| |discriminate].
    destruct (Zle_bool e2 (1024 - 53)); [exact (fun _ => I)|]. destruct t as [?|[]| |]; discriminate.
Qed.

Lemma fin_dot : forall a : list double, finite (fdot a a) -> Forall finite a.
Proof.
  induction a as [|x a IH]; intros H; constructor; cbn [fdot] in H; apply fin_add in H; destruct H as [H1 H2]; auto.
  now apply fin_mul in H1.
Qed.

Lemma fin_norm (a : list double) t : fltb (fnorm a) t = true -> Forall finite a.
Proof. unfold fnorm. intros H. apply fin_sqrt_lt, fin_sqrt, fin_dot in H. exact H. Qed.

Lemma fin_vadd (a b : v3 double) d : finite (vget (vadd a b) d) -> finite (vget a d) /\ finite (vget b d).
Proof. destruct d as [|[|d]]; cbn; apply fin_add. Qed.
Lemma fin_vsub (a b : v3 double) d : finite (vget (vsub a b) d) -> finite (vget a d) /\ finite (vget b d).
Proof. destruct d as [|[|d]]; cbn; apply fin_sub. Qed.
Lemma fin_vscale s (a : v3 double) d : finite (vget (vscale s a) d) -> finite s /\ finite (vget a d).
Proof. destruct d as [|[|d]]; cbn; apply fin_mul. Qed.
Lemma fin_vneg (a : v3 double) d : finite (vget (vneg a) d) -> finite (vget a d).
Proof. destruct d as [|[|d]]; cbn; apply fin_opp. Qed.
Lemma fin_vdivs (a : v3 double) s d : finite (vget (vdivs a s) d) -> finite (vget a d).
Proof. destruct d as [|[|d]]; cbn; apply fin_div. Qed.

(** ** Materials *)
Lemma fin_law u (e de : double) mat sv s t st : umat u e de mat sv = Ok (s, t, st) -> finite s -> finite e.
Proof.
  destruct u; cbn [umat].
  - unfold umat_el. intros H. mstep H. injection H as <- _ _. intros H. now apply fin_mul in H.
  - unfold umat_elplast_iso. intros H. mstep H. mstep H. mstep H. destruct sv as [sv|]; [|discriminate].
    mstep H. mstep H. cbv zeta in H. destruct (fleb _ _).
    + injection H as <- _ _. intros H. apply fin_mul in H. destruct H as [_ H]. now apply fin_sub in H.
    + injection H as <- _ _. intros H. apply fin_mul in H. destruct H as [_ H]. apply fin_mul in H. destruct H as [_ H]. now apply fin_sub in H.
Qed.

Lemma fin_quantities XA XE UA UE U0A U0E u mat geo (sv : option (list double)) q d :
  truss_quantities XA XE UA UE U0A U0E u mat geo sv = Ok q -> finite (q_N q) -> finite (vget (q_n q) d) ->
  finite (q_stress q) /\ finite (q_lam q) /\ finite (vget UA d) /\ finite (vget UE d).
Proof.
  unfold truss_quantities. intros H. mstep H. destruct a as [[s t] st]. mstep H. injection H as <-. cbn [q_N q_n q_stress q_lam].
  intros HN Hn. apply fin_mul in HN. destruct HN as [Hs _]. split; [exact Hs|].
  split. { eapply fin_law in Ha; [|exact Hs]. now apply fin_sub in Ha. }
  apply fin_vdivs, fin_vadd in Hn. destruct Hn as [_ Hn]. apply fin_vsub in Hn. tauto.
Qed.

(** ** Nodal sums *)
Lemma nth_radd (r : list (v3 double)) i v p : (i < length r)%nat ->
  nth p (radd r i v) vzero = if (p =? i)%nat then vadd (nth i r vzero) v else nth p r vzero.
Proof.
  intros Hi. unfold radd. rewrite nth_set_nth. destruct (Nat.ltb_spec i (length r)); [|lia]. now rewrite andb_true_r.
Qed.

Section Sums.
  Variables (c : ctx double) (ms : list (member double)).
  Hypothesis Hok : truss_ok c ms.
  Notation pos l := (idx l (c_labels c)).

  Lemma fin_member r (mq : member double * truss_q (F:=double)) p d :
    length r = length (c_labels c) -> In (fst mq) ms ->
    finite (vget (nth p (r_member c r mq) vzero) d) ->
    finite (vget (nth p r vzero) d) /\
    (p = pos (mb_a (fst mq)) \/ p = pos (mb_b (fst mq)) -> finite (q_N (snd mq)) /\ finite (vget (q_n (snd mq)) d)).
  Proof.
    intros Hl Hin H. destruct Hok as (_ & _ & _ & _ & Hm). destruct (Hm _ Hin) as (Ha & Hb & Hne).
    pose proof (idx_lt _ _ Ha) as La. pose proof (idx_lt _ _ Hb) as Lb.
    unfold r_member in H. rewrite nth_radd in H by (rewrite radd_length; lia).
    destruct (Nat.eqb_spec p (pos (mb_b (fst mq)))) as [->|Hp].
    - apply fin_vadd in H. destruct H as [H1 H2]. apply fin_vscale in H2.
      rewrite nth_radd in H1 by lia. destruct (Nat.eqb_spec (pos (mb_b (fst mq))) (pos (mb_a (fst mq)))) as [E|_].
      + apply fin_vadd in H1. rewrite E. tauto.
      + tauto.
    - rewrite nth_radd in H by lia. destruct (Nat.eqb_spec p (pos (mb_a (fst mq)))) as [->|Hp'].
      + apply fin_vadd in H. destruct H as [H1 H2]. apply fin_vscale in H2. destruct H2 as [H2 H3]. apply fin_vneg in H3. tauto.
      + tauto.
  Qed.

  Lemma fin_sum p d : forall (l : list (member double * truss_q (F:=double))) r,
    length r = length (c_labels c) -> (forall mq, In mq l -> In (fst mq) ms) ->
    finite (vget (nth p (fold_left (r_member c) l r) vzero) d) ->
    finite (vget (nth p r vzero) d) /\
    (forall mq, In mq l -> p = pos (mb_a (fst mq)) \/ p = pos (mb_b (fst mq)) ->
       finite (q_N (snd mq)) /\ finite (vget (q_n (snd mq)) d)).
  Proof.
    induction l as [|mq l IH]; intros r Hl Hin H; [split; [exact H|intros mq []]|]. cbn [fold_left] in H.
    apply IH in H; [|rewrite r_member_length; exact Hl|intros; apply Hin; now right].
    destruct H as [H1 H2]. apply fin_member in H1; [|exact Hl|apply Hin; now left]. destruct H1 as [H1 H3].
    split; [exact H1|]. intros mq' [<-|Hin']; auto.
  Qed.

  (** A finite internal force at component [d] of node [p] after an evaluation. *)
  Lemma fin_evaluation V V0 w an an' gr p d :
    sizes_ok c ms an -> equilibrium c V V0 w an = Ok (an', gr) -> (d < 3)%nat ->
    finite (nth (3 * p + d) (vflat (a_r an')) f0) -> (p < length (c_labels c))%nat ->
    forall k m, nth_error ms k = Some m -> end_of (c_labels c) p m ->
    exists N s lam, nth_error (a_force an') k = Some N /\ finite N /\ nth_error (a_stress an') k = Some s /\ finite s /\
      nth_error (a_stretch an') k = Some lam /\ finite lam /\ finite (nth (3 * p + d) (vflat (a_U an')) f0).
  Proof.
    intros Hsz HE Hd Hr Hp k m Hk Hend.
    destruct (gequilibrium_inv _ _ _ _ _ _ _ _ Hok Hsz HE) as (an1 & qs & g & _ & Hsz1 & Hq & Ean & _ & _).
    pose proof (gequilibrium_sizes _ _ _ _ _ _ _ _ Hok Hsz HE) as Hsz'.
    pose proof (quants_length _ _ _ _ _ _ _ Hq) as Lq.
    destruct (quants_nth _ _ _ _ _ _ _ Hq k m Hk) as (q & Hqk & Hmq).
    assert (Er : a_r an' = fold_left (r_member c) (combine ms qs) (a_r an1)).
    { rewrite Ean. cbn [a_r set_g]. apply loop_r. exact Lq. }
    assert (E1 : a_force an' = map q_N qs).
    { rewrite Ean. cbn [a_force set_g]. apply loop_force; [exact Lq|apply Hsz1]. }
    assert (E2 : a_stress an' = map q_stress qs).
    { rewrite Ean. cbn [a_stress set_g]. apply loop_stress; [exact Lq|apply Hsz1]. }
    assert (E3 : a_stretch an' = map q_lam qs).
    { rewrite Ean. cbn [a_stretch set_g]. apply loop_stretch; [exact Lq|apply Hsz1]. }
    assert (G : forall (l : list (v3 double)), length l = length (c_labels c) ->
              nth (3 * p + d) (vflat l) f0 = vget (nth p l vzero) d).
    { intros l Ll. apply nth_error_nth. destruct (nth_error l p) as [v|] eqn:E; [|apply nth_error_None in E; lia].
      rewrite (vflat_nth3 _ _ _ _ Hd E). f_equal. f_equal. symmetry. now apply nth_error_nth. }
    rewrite G in Hr by apply Hsz'. rewrite Er in Hr.
    apply fin_sum in Hr; [|apply Hsz1|intros mq H; destruct mq; now apply in_combine_l in H].
    destruct Hr as [_ Hr]. specialize (Hr (m, q)). cbn [fst snd] in Hr.
    destruct Hr as [HN Hn].
    { apply (nth_error_In _ k). clear - Hk Hqk. revert k qs Hk Hqk. generalize ms. intros l. induction l as [|x l IH]; intros [|k] [|y qs]; cbn; try discriminate; auto.
      - intros H1 H2. congruence. }
    { destruct Hend as [H|H]; [left|right]; symmetry; now apply idx_of_nth; [apply Hok|]. }
    unfold member_q in Hmq. destruct (fin_quantities _ _ _ _ _ _ _ _ _ _ _ _ Hmq HN Hn) as (F1 & F2 & F3 & F4).
    exists (q_N q), (q_stress q), (q_lam q). rewrite E1, E2, E3, !nth_error_map, Hqk. cbn [option_map].
    repeat (split; [first [reflexivity|assumption]|]). rewrite G by apply Hsz'.
    destruct Hend as [H|H]; [rewrite (idx_of_nth _ _ _ (proj1 Hok) H) in F3|rewrite (idx_of_nth _ _ _ (proj1 Hok) H) in F4]; assumption.
  Qed.
End Sums.

(** ** Records *)
Lemma gather_In {A} (l : list A) ix g k d : gather l ix = Ok g -> In k ix -> In (nth k l d) g.
Proof.
  intros H Hk. destruct (gather_nth _ _ _ H) as [Hl Hn]. apply In_nth_error in Hk. destruct Hk as [i Hi].
  destruct (Hn i k Hi) as [E Hlt]. eapply nth_error_In. rewrite E. now apply nth_error_nth'.
Qed.

Lemma bcast2_first (op : double -> double -> double) a b c : bcast2 op a b = Ok c -> (2 <= length a)%nat ->
  forall v, In v a -> exists w, In (op v w) c.
Proof.
  unfold bcast2. intros H L v Hv. destruct (Nat.eqb_spec (length a) (length b)) as [E|E].
  - injection H as <-. revert b E. clear L. induction a as [|x a IH]; intros [|y b] E; try discriminate; [destruct Hv|].
    destruct Hv as [->|Hv]; [exists y; now left|]. destruct (IH Hv b ltac:(cbn in E; lia)) as [w Hw]. exists w. now right.
  - destruct a as [|x [|x' a]]; try (cbn in L; lia). destruct b as [|y [|y' b]]; try discriminate.
    injection H as <-. exists y. rewrite <- (map_map (fun z => z) (fun z => op z y)). rewrite map_id. exact (in_map (fun z => op z y) _ _ Hv).
Qed.

Lemma fin_within cfg (x0 x dx : list double) j : within cfg x0 x dx j -> length x = length x0 -> (2 <= length x)%nat ->
  cf_jfixed cfg = false -> finite (cf_dxtol cfg) -> Forall finite x.
Proof.
  intros (Dx & q & H1 & H2 & H3) L L2 Hj Hd. rewrite Hj in H3. apply Forall_forall. intros v Hv.
  destruct (bcast2_first _ _ _ _ H1 L2 v Hv) as [w Hw].
  destruct (bcast2_first _ _ _ _ H2 ltac:(rewrite (bcast2_length_l _ _ _ _ H1) by exact L2; exact L2) _ Hw) as [w' Hw'].
  apply H3, fin_le in Hw'; [|exact Hd]. apply fin_div in Hw'. now apply fin_sub in Hw'.
Qed.

Lemma fin_record c ms ftol x0 x (a0 a : analysis double) :
  truss_ok c ms -> sizes_ok c ms a -> (1 <= c_ndof1 c)%nat -> residual_is a -> in_balance ftol x0 x a ->
  (exists an1 an2 gr, sizes_ok c ms an1 /\ equilibrium c x x0 true an1 = Ok (an2, gr) /\ a = recorded x an2) ->
  numbers (c_labels c) ms a /\ exists xj, py_get x (Z.abs (a_j a) - 1) = Ok xj /\ finite xj.
Proof.
  intros Htr Hsz H1 [Lg Hres] (gr & dj & xj & x0j & Hg & _ & Hxj & _ & Hn) (an1 & an2 & gr' & Hs1 & HE & Ea).
  apply fin_norm, Forall_app in Hn. destruct Hn as [Hgr Hc]. apply Forall_inv in Hc. apply fin_sub in Hc.
  pose proof Hsz as (LU & _ & _ & _ & _ & _ & _ & _ & _ & HD & Hnd & _).
  assert (G : forall k, In k (a_DOF1 a) -> finite (nth k (a_g a) f0) /\ finite (nth k (vflat (a_r a)) f0) /\ finite (a_lpf a)).
  { intros k Hk. pose proof (gather_In _ _ _ k f0 Hg Hk) as Hin.
    rewrite Forall_forall in Hgr. specialize (Hgr _ (in_map fopp _ _ Hin)). apply (proj1 (fin_opp _)) in Hgr. split; [exact Hgr|].
    specialize (HD k Hk). rewrite Hres in Hgr by lia. apply fin_add in Hgr. destruct Hgr as [A B]. apply fin_add in A. apply fin_mul in B.
    destruct A as [A _]. apply (proj1 (fin_opp _)) in A. tauto. }
  split; [|exists xj; tauto]. split.
  { destruct (a_DOF1 a) as [|k l] eqn:E; [cbn in Hnd; lia|]. apply (G k). now left. }
  intros p d [Hin Hd]. destruct (G _ Hin) as (G1 & G2 & _). split; [exact G1|]. split; [exact G2|].
  intros k m Hk Hend.
  assert (Hp : (p < length (c_labels c))%nat) by (specialize (HD _ Hin); lia).
  destruct (fin_evaluation c ms Htr x x0 true an1 an2 gr' p d Hs1 HE Hd) with (k:=k) (m:=m) as (N & s & lam & R); auto.
  { rewrite Ea in G2. exact G2. }
  rewrite Ea. cbn. split; [tauto|]. exists N, s, lam. tauto.
Qed.

Section Session.
  Variable argsortF : list double -> list nat.
  Variable solve : list (list double) -> list double -> list double.
  Variable argsortZ : list Z -> list nat.

  Lemma records_finite P m ns ms bs fs m1 fuel m2 out logs :
    argsort_ok argsortZ -> described m ns ms bs fs -> session argsortF solve argsortZ P m m1 ->
    ran_as argsortF solve m1 fuel m2 out logs ->
    (forall u, m_built m1 = Some u -> 1 <= u_ndof1 u)%nat ->
    exists nh, m_nodes m1 = Some nh /\
      forall lg, In lg logs -> exists recs, good_part lg recs /\
      along (fun x0 a0 x a =>
        (numbers (n_labels nh) ms a /\
         (exists xj, py_get x (Z.abs (a_j a) - 1) = Ok xj /\ finite xj) /\
         (s_jfixed (m_set m1) = false -> finite (s_dxtol (m_set m1)) -> Forall finite x)) \/
        (s_jpre (m_set m1) = true /\ s_jfixed (m_set m1) = false /\ x = x0))
        (a_Ured (lg_start lg) ++ [f0]) (lg_start lg) recs.
  Proof.
    intros HA Hd HS Hran H1.
    destruct (session_logs _ _ _ _ _ _ _ _ _ _ _ _ _ _ HA Hd HS Hran)
      as (c & D0 & D1 & w & u1 & Htr & Hlab & Eu & Hnd & _ & (nh & eh & En & Ee & Ec) & _ & fh & _ & _ & _ & Hlogs).
    specialize (H1 _ Eu). exists nh. split; [exact En|].
    intros lg Hin. apply In_nth_error in Hin. destruct Hin as [k Hk].
    destruct (Hlogs _ _ Hk) as ((Hr & Hl & Hrecs & _) & Hrn & Hsh & _).
    assert (El : length (a_Ured (lg_start lg) ++ [f0]) = S (c_ndof1 c)) by (rewrite app_length, (Hl ltac:(lia)); cbn; lia).
    apply step_kinds in Hrn. destruct Hrn as (incs & xl & recs & Hg & Hal & _). cbv zeta in *.
    exists recs. split; [exact Hg|].
    eapply (along_impl _ _ (fun x a => reached c ms D0 D1 a /\ length x = S (c_ndof1 c) /\ loads_shape a)) in Hal.
    - apply Hal.
    - split; [exact Hr|]. split; [exact El|exact Hsh].
    - intros x0 a0 x a (Hr0 & Hx0 & Hs0) Hk2.
      assert (Hka : kany solve c (pf_config (m_set m1) xl incs) (s_jpre (m_set m1)) x0 a0 x a) by (unfold kany; tauto).
      assert (Hra : reached c ms D0 D1 a) by (eapply reached_kind; eassumption).
      assert (Lx : length x = S (c_ndof1 c)) by (rewrite (kany_length _ _ _ _ _ _ _ _ Hka); lia).
      split.
      + split; [exact Hra|]. split; [exact Lx|].
        eapply shape_same; [eapply kany_same, Hka|exact Hs0].
      + destruct Hk2 as [Hk2|Hk2]; [left|right].
        * pose proof Hr0 as (Hsz & _).
          destruct (kacc_balance _ c _ ms x0 a0 x a Htr Hlab Hsz Hs0 Hx0 ltac:(lia) Hk2) as [B1 B2].
          destruct (kacc_eval _ c _ ms x0 a0 x a Htr Hsz Hk2) as (an1 & an2 & gr & E1 & _ & _ & E3 & E4).
          replace (n_labels nh) with (c_labels c) by (rewrite Ec; reflexivity).
          destruct (fin_record c ms _ x0 x a0 a Htr (proj1 Hra) ltac:(lia) B1 B2) as [N1 N2]; [exists an1, an2, gr; auto|].
          split; [exact N1|]. split; [exact N2|]. intros Hj Hdx.
          destruct Hk2 as (j & dxmax & xmax & xs & nfev & an & ts & t & an2' & v & _ & _ & _ & _ & _ & _ & _ & _ & Hw & _).
          eapply fin_within; [exact Hw|lia|lia|exact Hj|exact Hdx].
        * pose proof Hk2 as (Hj & Hf & _). apply kskp_same in Hk2. tauto.
  Qed.
End Session.
