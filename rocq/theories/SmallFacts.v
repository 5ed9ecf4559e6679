(** * Small increments succeed: from Newton's method to the increment loop *)
From Coq Require Import List ZArith Bool Arith Lia Reals Lra Permutation.
From Coquelicot Require Import Coquelicot.
Import ListNotations.
From Verif Require Import Num NumR Vec Handlers Material Analysis Truss Equil Solver ListFacts SpecMaterial SpecMech SpecMechR EquilFacts
  MechFacts StiffFacts TangentFacts SpecState FrameFacts SpecNewton BallFacts OneFacts JacFacts NearFacts NewtonFacts EvalFacts PropMech.
Local Open Scope R_scope.

Lemma last_place (argsortF : list R -> list nat) (l : list R) : Permutation (argsortF l) (seq 0 (length l)) -> l <> [] ->
  exists i, py_get (argsortF l) (-1) = Ok i /\ (i < length l)%nat.
Proof.
  intros HP Hl. pose proof (Permutation_length HP) as HL. rewrite seq_length in HL.
  destruct (exists_last (l := argsortF l)) as (y & i & E). { intros E. rewrite E in HL. destruct l; [tauto|discriminate]. }
  exists i. rewrite E in *. split.
  - unfold py_get. assert (Ep : py_pos (length (y ++ [i])) (-1) = Ok (length y)).
    { unfold py_pos. rewrite app_length. cbn [length]. change (0 <=? -1)%Z with false. cbn [andb].
      destruct (Z.leb_spec (- Z.of_nat (length y + 1)) (-1)); [|lia]. change (-1 <? 0)%Z with true. cbn [andb]. f_equal. lia. }
    rewrite Ep. cbn [bind]. rewrite nth_error_app2, Nat.sub_diag by lia. reflexivity.
  - apply (Permutation_in i) in HP; [|apply in_or_app; right; left; reflexivity]. apply in_seq in HP. lia.
Qed.

Lemma bcast_same (f : R -> R -> R) x y : length x = length y -> bcast2 f x y = Ok (map2 f x y).
Proof. intros H. unfold bcast2. rewrite H, Nat.eqb_refl. reflexivity. Qed.

Lemma py_get_abs (v : list R) j : (1 <= Z.abs j <= Z.of_nat (length v))%Z -> py_get v (Z.abs j - 1) = Ok (nth (Z.to_nat (Z.abs j - 1)) v 0).
Proof.
  intros H. unfold py_get, py_pos. destruct (Z.leb_spec 0 (Z.abs j - 1)); [|lia]. destruct (Z.ltb_spec (Z.abs j - 1) (Z.of_nat (length v))); [|lia]. cbn [andb bind].
  rewrite (nth_error_nth' v 0) by lia. reflexivity.
Qed.
Lemma py_get_head {A} (y : A) ys : py_get (y :: ys) 0 = Ok y.
Proof. reflexivity. Qed.
Lemma nth_map2 (f : R -> R -> R) x y i : (i < length x)%nat -> (i < length y)%nat -> nth i (map2 f x y) 0 = f (nth i x 0) (nth i y 0).
Proof. revert y i. induction x as [|a x IH]; intros [|b y] [|i] H1 H2; cbn in *; try lia; [reflexivity|]. apply IH; lia. Qed.

(** The residual does not depend on the displacements [V0] at the start of the increment. *)
Lemma residual_V0 c ms V V0 V1 w w' an a b g h : truss_ok c ms -> sizes_ok c ms an -> loads_ok c an -> length V = S (c_ndof1 c) ->
  equilibrium c V V0 w an = Ok (a, g) -> equilibrium c V V1 w' an = Ok (b, h) -> g = h.
Proof.
  intros Hok Hsz Hld HV Ea Eb.
  destruct (equilibrium_inv _ _ _ _ _ _ _ _ Hok Hsz Ea) as (_ & _ & _ & qs & _ & _ & Hq & _). apply quants_length in Hq.
  destruct (residual_formula _ _ _ _ _ _ _ _ Hok Hsz Hld HV Ea) as (U1 & L1 & R1).
  destruct (residual_formula _ _ _ _ _ _ _ _ Hok Hsz Hld HV Eb) as (U2 & L2 & R2).
  assert (EU : a_U b = a_U a) by congruence.
  apply (nth_ext g h 0 0); [congruence|]. intros i Hi. rewrite L1 in Hi.
  destruct (nth_error (a_DOF1 an) i) as [p|] eqn:Ep; [|apply nth_error_None in Ep; lia].
  assert (Hp : (p / 3 < length (c_labels c))%nat).
  { apply nth_error_In in Ep. destruct Hsz as (_ & _ & _ & _ & _ & _ & _ & _ & _ & Hd & _). apply Nat.div_lt_upper_bound; [lia|]. apply Hd, Ep. }
  destruct (nth_error (c_labels c) (p / 3)) as [l|] eqn:El; [|apply nth_error_None in El; lia].
  rewrite (R1 i p l Ep El), (R2 i p l Ep El). pose proof (nth_error_In _ _ El) as Hin.
  rewrite (force_sum _ _ _ _ _ _ _ _ qs l Hok Hsz Ea Hq Hin), (force_sum _ _ _ _ _ _ _ _ qs l Hok Hsz Eb Hq Hin), EU. reflexivity.
Qed.

Section Truss.
  Variables (c : ctx R) (ms : list (member R)) (an : analysis R) (j : Z) (solve : list (list R) -> list R -> list R) (argsortF : list R -> list nat) (xs : list R).
  Notation n := (S (c_ndof1 c)).
  Notation p := (Z.to_nat (Z.abs j - 1)).
  Hypotheses (Hok : truss_ok c ms) (Hsz : sizes_ok c ms an) (Hld : loads_ok c an) (Hpr : props_ok c ms an)
    (Hf0 : gather (concat (a_forces an)) (a_DOF1 an) = Ok (a_f0red an)) (Hxs : length xs = n)
    (Hj : (1 <= Z.abs j <= Z.of_nat n)%Z) (Hsol : solves n solve) (Hn : (1 <= c_ndof1 c)%nat).
  Hypothesis Hsort : forall l, Permutation (argsortF l) (seq 0 (length l)).
  Variables (an2 : analysis R) (Km : list (list R)).
  Hypotheses (HK : dfdx (stiffness c) j xs an = Ok (an2, Km)) (Hreg : regular c ms an (a_U an2)) (Hns : nonsingular n Km).

  (** One increment, from a start [x] near [xs] whose residual is at most the wanted
      change of the controlled component. *)
  Lemma small_increment tau : 0 < tau -> exists eta C, 0 < eta /\ 0 < C /\ forall ftol xtol, 0 < ftol -> 0 < xtol ->
    exists N, forall cfg dxmax0 fuel s g an0, let x := ps_x s in let d := nth p (ps_dxmax s) 0 in
      cf_jfixed cfg = true -> cf_ftol cfg = ftol -> cf_xtol cfg = xtol -> (Z.of_nat N <= cf_nfev cfg)%Z -> 1 + tau <= cf_dxtol cfg ->
      length dxmax0 = n -> length (ps_dxmax s) = n -> 0 < d <= eta -> within n eta x xs ->
      alike c ms an (ps_an s) -> ps_j s = j ->
      equilibrium c x x false (set_j j (ps_an s)) = Ok (an0, g) -> bounded (c_ndof1 c) d g ->
      exists s' h an3 k, increment solve argsortF (equilibrium c) (stiffness c) cfg dxmax0 (S fuel) s = Ok (s', false) /\
        ps_out s' = ps_out s ++ [MIncr] /\ ps_j s' = j /\ within n (C * d) (ps_x s') x /\
        Rabs (nth p (ps_x s') 0 - (nth p x 0 + IZR (Z.sgn j) * d)) <= tau * d /\
        equilibrium c (ps_x s') x true (set_j j k) = Ok (an3, h) /\ bounded (c_ndof1 c) (tau * d) h /\ same_setup an k /\ rows_alike c ms an k /\ sizes_ok c ms k /\ (cf_stepcontrol cfg = false -> ps_dxmax s' = ps_dxmax s) /\
        ps_an s' = set_lpf (last (ps_x s') 0) (set_Ured (removelast (ps_x s')) (set_Vred (ps_x s') an3)) /\
        ps_res s' = ps_res s ++ [(ps_x s', ps_an s')].
  Proof.
    intros Htau. set (q := Rmin (1 / 2) tau). assert (Hq : 0 < q < 1) by (unfold q; split; [apply Rmin_pos; lra|eapply Rle_lt_trans; [apply Rmin_l|lra]]).
    assert (Hqt : q <= tau) by apply Rmin_r.
    destruct (converges_from c ms an j solve xs Hok Hsz Hld Hpr Hf0 Hxs Hj Hsol an2 Km HK Hreg Hns q Hq) as (r & C & Hr & HC & H).
    exists (Rmin r (r / C)), C. assert (Hrc : 0 < r / C) by (apply Rdiv_lt_0_compat; lra). split; [apply Rmin_pos; lra|]. split; [exact HC|].
    intros ftol xtol Hft Hxt. destruct (H ftol xtol Hft Hxt) as [N HN]. exists N. clear H.
    intros cfg dxmax0 fuel s g an0 x d Hjf Ef Ex HNf Hdx L0 L1 Hd Hx Ean Ej Heq Hb.
    pose proof (proj1 Hx) as Lx.
    assert (Hsg : Rabs (IZR (Z.sgn j)) = 1).
    { destruct j as [|z|z]; cbn in *; [lia| |]; rewrite ?Rabs_R1; [reflexivity|]. rewrite Rabs_left; lra. }
    set (Vmax := nth p x 0 + d * IZR (Z.sgn j)).
    assert (HF : F0 c an x j Vmax x = map Ropp g ++ [- (d * IZR (Z.sgn j))]).
    { destruct (like_fn c ms an x j Vmax Hok Hsz Hld Hpr Lx Hf0 Hj x (ps_an s) Lx Ean) as (an9 & E9 & _).
      unfold f_ext in E9. rewrite Heq in E9. cbn [bind] in E9. rewrite py_get_abs in E9 by (rewrite Lx; exact Hj). cbn [bind] in E9.
      injection E9 as _ <-. numR. do 2 f_equal. unfold Vmax. ring. }
    pose proof (F0_length c ms an x j Vmax Hok Hsz Hld Hpr Lx Hj x Lx) as LF. rewrite HF, app_length, map_length in LF. cbn [length] in LF.
    assert (Hbd : bounded n d (F0 c an x j Vmax x)).
    { intros i Hi. rewrite HF. destruct (Nat.eq_dec i (length g)) as [->|Hne].
      - rewrite app_nth2 by (rewrite map_length; lia). rewrite map_length, Nat.sub_diag. cbn [nth]. rewrite Rabs_Ropp, Rabs_mult, Hsg, Rabs_right by lra. lra.
      - rewrite app_nth1 by (rewrite map_length; lia). rewrite <- Ropp_0 at 1. rewrite map_nth, Rabs_Ropp. apply Hb. lia. }
    assert (HCd : C * d <= r). { assert (d <= r / C) by (eapply Rle_trans; [apply Hd|apply Rmin_r]). apply Rle_trans with (C * (r / C)); [apply Rmult_le_compat_l; lra|]. right. field. lra. }
    assert (Hxr : within n r x xs). { split; [exact Lx|]. intros i Hi. eapply Rle_trans; [apply Hx, Hi|apply Rmin_l]. }
    destruct (HN x Vmax x d (cf_nfev cfg - 0)%Z (ps_an s) Ean Lx Hxr Hbd ltac:(lra) HCd ltac:(lia)) as (k & o & E & E1 & Elk & E2 & E3 & E4).
    pose proof (proj1 E3) as Lo.
    assert (Hqn : q ^ Z.to_nat (no_n o) <= tau).
    { apply Rle_trans with (q ^ 1); [|cbn; lra].
      clear - Hq E2. assert (G : forall m, (1 <= m)%nat -> q ^ m <= q ^ 1).
      { induction m as [|m IH]; [lia|]. intros _. destruct m; [lra|]. specialize (IH ltac:(lia)). change (q ^ S (S m)) with (q * q ^ S m). assert (0 <= q ^ S m) by (apply pow_le; lra). nra. }
      apply G. lia. }
    destruct (like_ok c ms an xs j Hsz Hld Hpr Hxs Hf0 Hj k Elk) as (S1 & S2 & S3 & _).
    destruct (C15_evaluations_succeed c ms (set_j j (set_dVmax (ps_dxmax s) k)) Hok S1 S2 S3) as [Hev _].
    destruct (Hev (no_x o) x true Lo Lx) as (an3 & h & Hh).
    (* the residual of the accepted state *)
    destruct (like_fn c ms an x j Vmax Hok Hsz Hld Hpr Lx Hf0 Hj (no_x o) k Lo Elk) as (an4 & E6 & _).
    destruct (C15_evaluations_succeed c ms (set_j j k) Hok S1 S2 S3) as [Hev2 _].
    destruct (Hev2 (no_x o) x false Lo Lx) as (an5 & h5 & Hh5).
    assert (Eh : h = h5).
    { refine (equil_alike c ms (no_x o) x false true (set_j j k) (set_j j (set_dVmax (ps_dxmax s) k)) an5 an3 h5 h Hok S1 S1 S2 _ _ Lo Hh5 Hh); [repeat split|now apply alike_state]. }
    assert (HFo : F0 c an x j Vmax (no_x o) = map Ropp h ++ [nth p (no_x o) 0 - Vmax]).
    { unfold f_ext in E6. rewrite Hh5 in E6. cbn [bind] in E6. rewrite py_get_abs in E6 by (rewrite Lo; exact Hj). cbn [bind] in E6. injection E6 as _ E6. rewrite <- E6, Eh. numR. reflexivity. }
    pose proof (F0_length c ms an x j Vmax Hok Hsz Hld Hpr Lx Hj (no_x o) Lo) as LFo. rewrite HFo, app_length, map_length in LFo. cbn [length] in LFo.
    assert (Bh : bounded (c_ndof1 c) (tau * d) h).
    { intros i Hi. assert (Hi' : (i < n)%nat) by lia. specialize (E4 i Hi'). rewrite HFo, app_nth1 in E4 by (rewrite map_length; lia). rewrite <- Ropp_0 in E4 at 1. rewrite map_nth, Rabs_Ropp in E4.
      eapply Rle_trans; [exact E4|]. apply Rmult_le_compat_r; lra. }
    assert (Bj : Rabs (nth p (no_x o) 0 - Vmax) <= tau * d).
    { specialize (E4 (c_ndof1 c) ltac:(lia)). rewrite HFo, app_nth2 in E4 by (rewrite map_length; lia). rewrite map_length in E4. replace (c_ndof1 c - length h)%nat with 0%nat in E4 by lia. cbn [nth] in E4.
      eapply Rle_trans; [exact E4|]. apply Rmult_le_compat_r; lra. }
    (* the increment *)
    unfold increment. cbv zeta. rewrite Hjf. cbn [negb]. rewrite andb_false_r. fold x. rewrite Ej.
    cbn [recycle rc_j rc_dxmax rc_z rc_npre rc_an rc_b rc_out]. cbv zeta. rewrite Hjf, Ef, Ex.
    rewrite !py_get_abs by (rewrite ?Lx, ?L1; exact Hj). cbn [bind]. fold d. numR. fold Vmax.
    rewrite E. cbn [bind]. rewrite bcast_same by lia. cbn [bind]. unfold biggest. rewrite bcast_same by (rewrite map2_length; lia). cbn [bind].
    numR. set (Q := map2 Rdiv (map2 Rminus (no_x o) x) (ps_dxmax s)). assert (LQ : length Q = n) by (unfold Q; rewrite !map2_length; lia).
    destruct (last_place argsortF (map Rabs Q) (Hsort _)) as (i & Hi & Hil). { intros E0. apply (f_equal (@length R)) in E0. rewrite map_length, LQ in E0. discriminate. }
    rewrite map_length in Hil. numR. rewrite Hi. cbn [bind]. rewrite (nth_error_nth' Q 0) by exact Hil. cbn [bind].
    destruct (Nat.ltb_spec (length (no_x o)) 2) as [Hlt|_]; [lia|]. rewrite bcast_same by (rewrite map2_length; lia). cbn [bind]. fold Q. rewrite py_get_abs by (rewrite LQ; exact Hj). cbn [bind].
    assert (Hv : Rleb (Rabs (nth p Q 0)) (cf_dxtol cfg) = true).
    { assert (Hp : (p < n)%nat) by lia. unfold Q. rewrite !nth_map2 by (rewrite ?map2_length; lia). fold d.
      assert (B : Rabs (nth p (no_x o) 0 - nth p x 0) <= (1 + tau) * d).
      { replace (nth p (no_x o) 0 - nth p x 0) with ((nth p (no_x o) 0 - Vmax) + d * IZR (Z.sgn j)) by (unfold Vmax; ring).
        eapply Rle_trans; [apply Rabs_triang|]. rewrite Rabs_mult, Hsg, (Rabs_right d) by lra. lra. }
      unfold Rleb. destruct (Rle_dec _ _) as [|Hc]; [reflexivity|]. exfalso. apply Hc. unfold Rdiv. rewrite Rabs_mult, (Rabs_right (/ d)) by (apply Rle_ge, Rlt_le, Rinv_0_lt_compat; lra).
      apply (Rmult_le_reg_r d); [lra|]. rewrite Rmult_assoc, Rinv_l, Rmult_1_r by lra. nra. }
    numR. rewrite Hv, E1. cbn [andb].
    match goal with |- context [if cf_stepcontrol cfg then ?a else ?b] => assert (Hsc : exists dx' z' b' ch, (if cf_stepcontrol cfg then a else b) = Ok (dx', z', b', ch) /\ (cf_stepcontrol cfg = false -> dx' = ps_dxmax s)) end.
    { destruct (cf_stepcontrol cfg); [|eauto 8]. unfold dxmax_control. cbn [negb].
      destruct (ps_dxmax s) as [|y0 ys]; [discriminate L1|]. destruct dxmax0 as [|z0 zs]; [discriminate L0|].
      rewrite !py_get_head. cbn [bind]. repeat (match goal with |- context [if ?b then _ else _] => destruct b end); do 4 eexists; (split; [reflexivity|discriminate]). }
    destruct Hsc as (dx' & z' & b' & ch & Hsc & Hdxk). rewrite Hsc. cbn [bind]. clear Hsc.
    unfold f_ext. rewrite Hh. cbn [bind]. rewrite py_get_abs by (rewrite Lo; exact Hj). cbn [bind].
    eexists _, h, an3, (set_dVmax (ps_dxmax s) k). split; [reflexivity|]. cbn [ps_out ps_j ps_x ps_an ps_res rc_an rc_out rc_j].
    split; [reflexivity|]. split; [reflexivity|]. split; [exact E3|]. split; [rewrite (Rmult_comm (IZR _)); exact Bj|]. split; [exact Hh|]. split; [exact Bh|].
    split; [exact (proj1 Elk)|]. split; [exact (proj2 (proj2 Elk))|]. split; [exact (proj1 (proj2 Elk))|]. split; [exact Hdxk|]. split; reflexivity.
  Qed.

  (** ** Acceptance below the yield stress *)

  (** At displacements [U] the plastic members are stressed below their current yield stress. *)
  Definition calm (U : list (v3 R)) : Prop := forall k m, nth_error ms k = Some m -> mb_law m = UmatPl ->
    exists E K Sy rest y q r, mb_mat m = E :: K :: Sy :: rest /\ state_row c an k = Some (y :: q :: r) /\ Rabs (E * (stretch_of c U m - 1 - q)) < yield_before Sy y.

  Lemma calm_near : calm (a_U an2) -> near n xs (fun z => calm (upd an z)).
  Proof.
    rewrite (updated c ms an j xs Hok Hsz Hld Hpr Hf0 Hxs Hj an2 Km HK) in *. intros H.
    assert (G : near n xs (fun z => forall k, (k < length ms)%nat -> forall m, nth_error ms k = Some m -> mb_law m = UmatPl ->
      exists E K Sy rest y q r, mb_mat m = E :: K :: Sy :: rest /\ state_row c an k = Some (y :: q :: r) /\ Rabs (E * (stretch_of c (upd an z) m - 1 - q)) < yield_before Sy y)).
    { apply (near_all n xs (fun k z => forall m, nth_error ms k = Some m -> mb_law m = UmatPl ->
        exists E K Sy rest y q r, mb_mat m = E :: K :: Sy :: rest /\ state_row c an k = Some (y :: q :: r) /\ Rabs (E * (stretch_of c (upd an z) m - 1 - q)) < yield_before Sy y)).
      intros k Hk. destruct (nth_error ms k) as [m|] eqn:Em; [|apply nth_error_None in Em; lia].
      destruct (mb_law m) eqn:El.
      { apply filter_forall. intros z m' Hm'. congruence. }
      destruct (H k m Em El) as (E & K & Sy & rest & y & q & r & H1 & H2 & H3).
      pose proof (nth_error_In _ _ Em) as Hin.
      assert (Hc : near n xs (fun z => Rabs (E * (stretch_of c (upd an z) m - 1 - q)) < yield_before Sy y)).
      { apply (cont_near n xs (fun z => Rabs (E * (stretch_of c (upd an z) m - 1 - q))) (fun t => t < yield_before Sy y)).
        - apply (cont_comp n xs Rabs (fun z => E * (stretch_of c (upd an z) m - 1 - q))); [|apply continuous_Rabs].
          apply cont_mult; [apply cont_const|]. apply cont_minus; [|apply cont_const]. eapply cont_stretch; eassumption.
        - apply (open_lt (yield_before Sy y)). exact H3. }
      revert Hc. apply filter_imp. intros z Hz m' Hm' _. injection Hm' as <-. exists E, K, Sy, rest, y, q, r. auto. }
    revert G. apply filter_imp. intros z Hz k m Hm. apply Hz; [|exact Hm]. apply nth_error_Some. congruence.
  Qed.

  Lemma accepted_alike k0 x x0 an3 h : alike c ms an k0 -> length x = n -> length x0 = n -> equilibrium c x x0 true (set_j j k0) = Ok (an3, h) ->
    calm (upd an x) -> alike c ms an an3.
  Proof.
    intros Hk Lx Lx0 He Hc. destruct (like_ok c ms an xs j Hsz Hld Hpr Hxs Hf0 Hj k0 Hk) as (S1 & S2 & S3 & _).
    destruct Hk as (Hs & _ & Hr).
    assert (Hs3 : sizes_ok c ms an3) by (eapply gequilibrium_sizes; [exact Hok| |exact He]; exact S1).
    split; [eapply same_trans; [exact Hs|exact (proj1 (equilibrium_same _ _ _ _ _ _ _ He))]|]. split; [exact Hs3|].
    assert (EU : a_U an3 = upd an x).
    { destruct (residual_formula c ms x x0 true (set_j j k0) an3 h Hok S1 S2 Lx He) as (U1 & _). cbn [a_U a_DOF1 set_j] in U1.
      pose proof (upd_ok c ms an x Hsz Lx x Lx) as U2. pose proof Hs as (_ & _ & HD & _ & _ & _ & _ & _ & HU & _). rewrite HD in U1.
      assert (Efr : firstn (c_ndof1 c) x = removelast x) by (symmetry; rewrite removelast_firstn_len, Lx; reflexivity).
      rewrite Efr in U1. eapply scatter_same; [| |exact U1|exact U2]; [|exact HU]. destruct S1 as (K1 & _), Hsz as (K2 & _). congruence. }
    intros k m Hm. destruct (Z.ltb_spec 0 (c_nstatev c)) as [Hpos|Hneg].
    2:{ left. unfold state_row. destruct (Z.ltb_spec 0 (c_nstatev c)); [lia|reflexivity]. }
    destruct (mb_law m) eqn:El; [right; left; exact El|]. 
    destruct (Hc k m Hm El) as (E & K & Sy & rest & y & q & r & H1 & H2 & H3).
    assert (Hk0 : exists y' r', state_row c k0 k = Some (y' :: q :: r') /\ yield_before Sy y' = yield_before Sy y).
    { destruct (Hr k m Hm) as [G|[G|(z & z' & q' & s & s' & G1 & G2 & G3)]]; [rewrite G, H2; eauto|congruence|].
      rewrite H2 in G1. injection G1 as <- <- <-. rewrite H1 in G3. cbn [nth] in G3. eauto. }
    destruct Hk0 as (y' & r' & Hk0 & Ey).
    assert (Est : exists sv, a_state k0 = Some sv). { unfold state_row in Hk0. destruct (0 <? c_nstatev c)%Z; [|discriminate]. destruct (a_state k0); [eauto|discriminate]. }
    destruct Est as [sv Est].
    destruct (state_written c ms x x0 (set_j j k0) an3 h sv Hok S1 He Hpos Est) as (sv' & E1 & _ & E3).
    destruct (E3 k m Hm) as (row & row' & lam & st & de & ds & G1 & G2 & G3 & G4 & G5).
    assert (Erow : row = y' :: q :: r').
    { unfold state_row in Hk0. rewrite Est in Hk0. destruct (0 <? c_nstatev c)%Z; [|discriminate]. congruence. }
    assert (Elam : lam = stretch_of c (upd an x) m).
    { destruct (internal_forces_any c ms x x0 true (set_j j k0) an3 h Hok S1 He) as [I1 _]. destruct (I1 k m Hm) as (? & ? & ? & ? & _ & _ & I3 & _). rewrite EU in I3. congruence. }
    subst row lam. right. right. rewrite El, H1 in G5. cbn [umat] in G5. unfold umat_elplast_iso in G5. cbn [item nth_error bind] in G5.
    assert (Eyb : forall t, (if feqb t f0 then Sy else t) = yield_before Sy t).
    { intros t. unfold yield_before. cbn [feqb f0 NumR]. unfold Reqb. destruct (Req_EM_T t 0); reflexivity. }
    rewrite Eyb, Ey in G5. numR.
    destruct (Rleb (Rabs (E * (stretch_of c (upd an x) m - 1 - q)) - yield_before Sy y) 0) eqn:Ele.
    2:{ exfalso. unfold Rleb in Ele. destruct (Rle_dec _ _) as [|Hle]; [discriminate|]. apply Hle. lra. }
    injection G5 as _ _ <-. exists y, (yield_before Sy y + K * 0), q, r, r'. split; [exact H2|]. split.
    - unfold state_row. rewrite E1, G2. destruct (Z.ltb_spec 0 (c_nstatev c)); [reflexivity|lia].
    - rewrite H1. cbn [nth]. rewrite Rmult_0_r, Rplus_0_r. unfold yield_before. destruct (Req_EM_T y 0) as [->|Hy]; [|destruct (Req_EM_T y 0); [contradiction|reflexivity]].
      destruct (Req_EM_T Sy 0); reflexivity.
  Qed.

  (** [a] records the evaluation at [x], with residual [h]. *)
  Definition evaluated (x h : list R) (a : analysis R) : Prop := exists k0 x0 an3, alike c ms an k0 /\ length x0 = n /\
    equilibrium c x x0 true (set_j j k0) = Ok (an3, h) /\ a = set_lpf (last x 0) (set_Ured (removelast x) (set_Vred x an3)).

  (** A number of increments, as long as the way gone stays short. *)
  Lemma small_increments tau : calm (a_U an2) -> 0 < tau <= 1 -> exists eta C, 0 < eta /\ 0 < C /\ forall ftol xtol, 0 < ftol -> 0 < xtol ->
    exists N, forall cfg dxmax0 fuel d e, 
      cf_jfixed cfg = true -> cf_ftol cfg = ftol -> cf_xtol cfg = xtol -> (Z.of_nat N <= cf_nfev cfg)%Z -> 1 + tau <= cf_dxtol cfg ->
      cf_stepcontrol cfg = false -> (forall x, length x = n -> beyond_limit cfg x = Ok false) -> length dxmax0 = n -> 0 < d <= eta ->
      forall m s g an0, length (ps_dxmax s) = n -> nth p (ps_dxmax s) 0 = d -> within n e (ps_x s) xs -> e + INR m * (C * d) <= eta ->
      alike c ms an (ps_an s) -> ps_j s = j ->
      equilibrium c (ps_x s) (ps_x s) false (set_j j (ps_an s)) = Ok (an0, g) -> bounded (c_ndof1 c) d g ->
      exists s' recs, increments solve argsortF (equilibrium c) (stiffness c) cfg dxmax0 (S fuel) m s = Ok s' /\
        ps_out s' = ps_out s ++ repeat MIncr m /\ ps_res s' = ps_res s ++ recs /\ length recs = m /\
        forall q x a, nth_error recs q = Some (x, a) -> within n (INR (S q) * (C * d)) x (ps_x s) /\
          Rabs (nth p x 0 - (nth p (ps_x s) 0 + INR (S q) * (IZR (Z.sgn j) * d))) <= INR (S q) * (tau * d) /\
          x = a_Ured a ++ [a_lpf a] /\ alike c ms an a /\
          exists h, gather (a_g a) (a_DOF1 an) = Ok h /\ bounded (c_ndof1 c) (tau * d) h /\ evaluated x h a.
  Proof.
    intros Hcm Htau. destruct (small_increment tau (proj1 Htau)) as (eta0 & C & Heta0 & HC & H). destruct (calm_near Hcm) as (dc & Hdc & Hcalm).
    set (eta := Rmin eta0 dc). assert (He0 : eta <= eta0) by apply Rmin_l. assert (Hedc : eta <= dc) by apply Rmin_r.
    assert (Heta : 0 < eta) by (apply Rmin_pos; assumption). clearbody eta.
    exists eta, C. split; [exact Heta|]. split; [exact HC|].
    intros ftol xtol Hft Hxt. destruct (H ftol xtol Hft Hxt) as [N HN]. exists N. clear H.
    intros cfg dxmax0 fuel d e Hjf Ef Ex HNf Hdx Hsc Hlim L0 Hd m. revert e. induction m as [|m IH]; intros e s g an0 L1 Edx Hx He Ha Ej Heq Hb.
    { exists s, []. cbn [increments repeat length]. rewrite !app_nil_r. repeat split; try reflexivity. all: destruct q; discriminate. }
    assert (HCd : 0 < C * d) by (apply Rmult_lt_0_compat; lra).
    rewrite S_INR in He. assert (Hm : 0 <= INR m * (C * d)) by (apply Rmult_le_pos; [apply pos_INR|lra]).
    assert (Hxe : within n eta0 (ps_x s) xs) by (split; [apply Hx|intros i Hi; eapply Rle_trans; [apply Hx, Hi|lra]]).
    destruct (HN cfg dxmax0 fuel s g an0 Hjf Ef Ex HNf Hdx L0 L1 ltac:(rewrite Edx; lra) Hxe Ha Ej Heq ltac:(rewrite Edx; exact Hb))
      as (s1 & h & an3 & k & E & E1 & E2 & E3 & E4 & E5 & E6 & E7 & E8 & E9 & E10 & E11 & E12).
    rewrite Edx in E3, E4, E6. specialize (E10 Hsc). pose proof (proj1 E3) as Lx1. pose proof (proj1 Hx) as Lx.
    assert (Hx1 : within n (e + C * d) (ps_x s1) xs).
    { split; [exact Lx1|]. intros i Hi. replace (nth i (ps_x s1) 0 - nth i xs 0) with ((nth i (ps_x s) 0 - nth i xs 0) + (nth i (ps_x s1) 0 - nth i (ps_x s) 0)) by ring.
      eapply Rle_trans; [apply Rabs_triang|]. apply Rplus_le_compat; [apply Hx, Hi|apply E3, Hi]. }
    assert (Hwk : alike c ms an an3).
    { refine (accepted_alike k (ps_x s1) (ps_x s) an3 h (conj E7 (conj E9 E8)) Lx1 Lx E5 (Hcalm (ps_x s1) _)). split; [exact Lx1|]. intros i Hi.
      eapply Rle_trans; [apply Hx1, Hi|lra]. }
    assert (Hw1 : alike c ms an (ps_an s1)) by (rewrite E11; exact Hwk).
    destruct (like_ok c ms an xs j Hsz Hld Hpr Hxs Hf0 Hj (ps_an s1) Hw1) as (S1 & S2 & S3 & _).
    destruct (C15_evaluations_succeed c ms (set_j j (ps_an s1)) Hok S1 S2 S3) as [Hev _].
    destruct (Hev (ps_x s1) (ps_x s1) false Lx1 Lx1) as (an4 & g4 & Hg4).
    destruct (Hev (ps_x s1) (ps_x s) false Lx1 Lx) as (an5 & g5 & Hg5).
    assert (Eg : g4 = h).
    { transitivity g5; [exact (residual_V0 c ms _ _ _ _ _ (set_j j (ps_an s1)) _ _ _ _ Hok S1 S2 Lx1 Hg4 Hg5)|].
      refine (equil_alike c ms (ps_x s1) (ps_x s) true false (set_j j k) (set_j j (ps_an s1)) an3 an5 h g5 Hok E9 S1 _ _ _ Lx1 E5 Hg5).
      - unfold loads_ok in *. destruct E7 as (_ & _ & _ & _ & Hc & Ho & _). cbn [a_fconst a_forces set_j]. rewrite Hc, Ho. exact Hld.
      - eapply same_trans; [|rewrite E11; exact (proj1 (equilibrium_same _ _ _ _ _ _ _ E5))]. apply same_refl.
      - intros kk m0 Hm0. eapply same_row_trans; [apply same_row_sym, (E8 kk m0 Hm0)|exact (proj2 (proj2 Hw1) kk m0 Hm0)]. }
    subst g4. cbn [increments]. rewrite E. cbn [bind]. rewrite Hlim by exact Lx1. cbn [bind].
    destruct (IH (e + C * d) s1 h an4 ltac:(rewrite E10; exact L1) ltac:(rewrite E10; exact Edx) Hx1 ltac:(lra) Hw1 E2 Hg4)
      as (s' & recs & Hs' & Ho & Hr & Hlen & Hall).
    { intros i Hi. eapply Rle_trans; [apply E6, Hi|]. nra. }
    exists s', ((ps_x s1, ps_an s1) :: recs). split; [exact Hs'|]. split; [rewrite Ho, E1, <- app_assoc; reflexivity|].
    split; [rewrite Hr, E12, <- app_assoc; reflexivity|]. split; [cbn [length]; now rewrite Hlen|].
    assert (Es1 : ps_x s1 = a_Ured (ps_an s1) ++ [a_lpf (ps_an s1)]).
    { rewrite E11. cbn [a_Ured a_lpf set_lpf set_Ured]. symmetry. destruct (snoc_split (ps_x s1) (c_ndof1 c) Lx1) as [G _]. symmetry. exact G. }
    intros [|q] x a Hq; cbn [nth_error] in Hq.
    - injection Hq as <- <-. change (INR 1) with 1. rewrite !Rmult_1_l. split; [exact E3|]. split; [exact E4|]. split; [exact Es1|]. split; [exact Hw1|].
      exists h. split; [|split; [exact E6|exists k, (ps_x s), an3; split; [exact (conj E7 (conj E9 E8))|split; [exact Lx|split; [exact E5|exact E11]]]]]. rewrite E11. pose proof (eval_residual _ _ _ _ _ _ _ E5) as G. cbn [a_g set_lpf set_Ured set_Vred].
      destruct Hwk as ((_ & _ & HD & _) & _). rewrite <- HD. exact G.
    - destruct (Hall q x a Hq) as (G1 & G2 & G3). rewrite (S_INR (S q)). split; [|split; [|exact G3]].
      + split; [apply G1|]. intros i Hi. replace (nth i x 0 - nth i (ps_x s) 0) with ((nth i x 0 - nth i (ps_x s1) 0) + (nth i (ps_x s1) 0 - nth i (ps_x s) 0)) by ring.
        eapply Rle_trans; [apply Rabs_triang|]. rewrite Rmult_plus_distr_r, Rmult_1_l. apply Rplus_le_compat; [apply G1, Hi|apply E3, Hi].
      + replace (nth p x 0 - (nth p (ps_x s) 0 + (INR (S q) + 1) * (IZR (Z.sgn j) * d)))
          with ((nth p x 0 - (nth p (ps_x s1) 0 + INR (S q) * (IZR (Z.sgn j) * d))) + (nth p (ps_x s1) 0 - (nth p (ps_x s) 0 + IZR (Z.sgn j) * d))) by ring.
        eapply Rle_trans; [apply Rabs_triang|]. rewrite Rmult_plus_distr_r, Rmult_1_l. apply Rplus_le_compat; assumption.
  Qed.
End Truss.
