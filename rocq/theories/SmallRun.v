(** * A first run with small steps succeeds *)
From Coq Require Import List ZArith Bool Arith Lia Reals Lra Permutation.
Import ListNotations.
From Verif Require Import Num NumR TolFacts Vec Handlers Material Analysis Truss Equil Solver Run ListFacts SpecMaterial SpecMech SpecMechR SpecBuild EquilFacts
  MechFacts StiffFacts TangentFacts SpecState FrameFacts SpecSolver SpecRun RunFacts ReachFacts SessionFacts PropMech RunProps BuildFacts BuildProps
  SpecBar PropBar SpecOne OneFacts OneRun SpecNewton BallFacts JacFacts NearFacts NewtonFacts EvalFacts SmallFacts SpecSmall SpecForm FormFacts PropForm.
Local Open Scope R_scope.

(** ** An elastic truss at rest is balanced *)

(** The plastic members have not been strained. *)
Definition unstrained (c : ctx R) (ms : list (member R)) (an : analysis R) : Prop :=
  forall k b, nth_error ms k = Some b -> mb_law b = UmatPl -> exists r, state_row c an k = Some (0 :: 0 :: r).

(** Neither has any member yielded: the row may hold the initial yield stress. *)
Definition intact_row (b : member R) (row : option (list R)) : Prop :=
  exists y r, row = Some (y :: 0 :: r) /\ (y = 0 \/ y = nth 2 (mb_mat b) 0).
Definition unyielded (c : ctx R) (ms : list (member R)) (an : analysis R) : Prop :=
  forall k b, nth_error ms k = Some b -> mb_law b = UmatPl -> intact_row b (state_row c an k).
Lemma unstrained_unyielded c ms an : unstrained c ms an -> unyielded c ms an.
Proof. intros H k b Hk El. destruct (H k b Hk El) as [r E]. exists 0, r. auto. Qed.

(** Below the yield stress a member that has not yielded follows Hooke's law. *)
Lemma hooke_state b row e : elastic_at_first b -> (mb_law b = UmatPl -> intact_row b row) ->
  (mb_law b = UmatPl -> Rabs (nth 0 (mb_mat b) 0 * e) <= nth 2 (mb_mat b) 0) ->
  forall de, exists st, umat (mb_law b) e de (mb_mat b) row = Ok (nth 0 (mb_mat b) 0 * e, nth 0 (mb_mat b) 0, st) /\
    (mb_law b = UmatPl -> intact_row b st) /\ (mb_law b = UmatEl -> st = row).
Proof.
  intros [_ H] Hr He de. destruct (mb_law b); cbn [umat].
  - unfold umat_el. destruct (mb_mat b) as [|E ?]; [contradiction|]. cbn. eexists. split; [reflexivity|]. split; [discriminate|reflexivity].
  - destruct H as (E & K & Sy & rest & Em & H1 & H2 & H3). destruct (Hr eq_refl) as (y & r & -> & Hy). specialize (He eq_refl). unfold intact_row. rewrite Em in *. cbn [nth] in *.
    unfold umat_elplast_iso. cbn [item nth_error bind]. numR. rewrite !Rminus_0_r.
    replace (if Reqb y 0 then Sy else y) with Sy by (unfold Reqb; destruct (Req_EM_T y 0), Hy; congruence).
    unfold Rleb. destruct (Rle_dec _ _) as [_|Hc]; [|lra]. eexists. split; [reflexivity|]. split; [|discriminate].
    intros _. cbn [set_nth]. eexists _, r. split; [reflexivity|]. right. ring.
Qed.
Lemma hooke b row e : elastic_at_first b -> (mb_law b = UmatPl -> intact_row b row) ->
  (mb_law b = UmatPl -> Rabs (nth 0 (mb_mat b) 0 * e) <= nth 2 (mb_mat b) 0) ->
  forall de, exists st, umat (mb_law b) e de (mb_mat b) row = Ok (nth 0 (mb_mat b) 0 * e, nth 0 (mb_mat b) 0, st).
Proof. intros H1 H2 H3 de. destruct (hooke_state b row e H1 H2 H3 de) as (st & E & _). eauto. Qed.

Lemma hooke_rest b row : elastic_at_first b -> (mb_law b = UmatPl -> intact_row b row) ->
  forall de, exists st, umat (mb_law b) 0 de (mb_mat b) row = Ok (0, nth 0 (mb_mat b) 0, st).
Proof.
  intros H Hr de. destruct (hooke b row 0 H Hr) with (de := de) as [st E].
  - intros El. destruct H as [_ H]. rewrite El in H. destruct H as (E & K & Sy & rest & -> & H1 & H2 & H3). cbn [nth]. rewrite Rmult_0_r, Rabs_R0. lra.
  - rewrite Rmult_0_r in E. eauto.
Qed.

Section Rest.
  Variables (c : ctx R) (ms : list (member R)) (an : analysis R).
  Hypotheses (Hok : truss_ok c ms) (Hsz : sizes_ok c ms an) (Hld : loads_ok c an)
    (Hel : forall b, In b ms -> elastic_at_first b) (Hun : unyielded c ms an) (Hax : forall b, In b ms -> len (axis0 c b) <> 0).
  Hypothesis (Hfc : forall k, nth k (concat (a_fconst an)) 0 = 0).

  Lemma row_zeros labels m l : row_of labels (zeros3 (F:=R) m) vzero l = vzero.
  Proof. revert m. induction labels as [|a ls IH]; intros [|m]; cbn; try reflexivity. destruct (Z.eqb l a); [reflexivity|apply IH]. Qed.

  Lemma axis_rest m b : axis c (zeros3 m) b = axis0 c b.
  Proof.
    unfold axis, axis0, place. rewrite !row_zeros.
    generalize (row_of (c_labels c) (c_coords c) vzero (mb_a b)), (row_of (c_labels c) (c_coords c) vzero (mb_b b)).
    intros [x y z] [x' y' z']. unfold vsub, vadd, vmap2, vzero. cbn. f_equal; ring.
  Qed.

  Lemma rest_residual V V0 w a g m : length V = S (c_ndof1 c) -> last V 0 = 0 \/ (forall k, nth k (concat (a_forces an)) 0 = 0) -> equilibrium c V V0 w an = Ok (a, g) -> a_U a = zeros3 m ->
    forall i, nth i g 0 = 0.
  Proof.
    intros HV Hl E HU i.
    destruct (residual_formula _ _ _ _ _ _ _ _ Hok Hsz Hld HV E) as (_ & L & R).
    destruct (le_lt_dec (length g) i) as [Hi|Hi]; [now apply nth_overflow|]. rewrite L in Hi.
    destruct (nth_error (a_DOF1 an) i) as [p|] eqn:Ep; [|apply nth_error_None in Ep; lia].
    assert (Hp : (p / 3 < length (c_labels c))%nat).
    { apply nth_error_In in Ep. destruct Hsz as (_ & _ & _ & _ & _ & _ & _ & _ & _ & Hd & _). apply Nat.div_lt_upper_bound; [lia|]. apply Hd, Ep. }
    destruct (nth_error (c_labels c) (p / 3)) as [l|] eqn:El; [|apply nth_error_None in El; lia].
    rewrite (R i p l Ep El), Hfc. assert (Hz : last V 0 * nth p (concat (a_forces an)) 0 = 0) by (destruct Hl as [->|Hl]; [ring|rewrite Hl; ring]). rewrite Hz. destruct (internal_forces_any _ _ _ _ _ _ _ _ Hok Hsz E) as [I1 I2].
    rewrite (I2 l (nth_error_In _ _ El)).
    assert (Z0 : vsum (map (pull c (a_U a) l) (combine ms (a_force a))) = vzero).
    { apply vsum_map_0. intros [b f] Hin. apply In_nth_error in Hin. destruct Hin as [k Hk]. rewrite nth_error_combine in Hk.
      destruct (nth_error ms k) as [b'|] eqn:Eb; [|discriminate]. destruct (nth_error (a_force a) k) as [f'|] eqn:Ef; [|discriminate]. injection Hk as -> ->.
      destruct (I1 k b Eb) as (s & t & st & A & U1 & _ & _ & _ & U2). rewrite Ef in U2. injection U2 as ->.
      pose proof (nth_error_In _ _ Eb) as Hb. specialize (U1 0). rewrite HU in U1. unfold stretch_of in U1. rewrite axis_rest in U1.
      replace (len (axis0 c b) / len (axis0 c b) - 1) with 0 in U1 by (field; exact (Hax b Hb)).
      destruct (hooke_rest b _ (Hel b Hb) (Hun k b Eb) 0) as [st' E']. rewrite E' in U1. injection U1 as <- _ _.
      unfold pull. cbn [fst snd].
      match goal with |- context [vscale ?x] => replace x with 0 by ring end.
      destruct (direction c (a_U a) b) as [x y z]. destruct (Z.eqb l (mb_b b)); [|destruct (Z.eqb l (mb_a b))]; unfold vscale, vneg, vmap, vzero; cbn; f_equal; ring. }
    rewrite Z0, vget_vzero. ring.
  Qed.
End Rest.

(** ** The path follower *)
Section Path.
  Variables (c : ctx R) (ms : list (member R)) (an : analysis R) (j : Z) (solve : list (list R) -> list R -> list R) (argsortF : list R -> list nat).
  Notation n := (S (c_ndof1 c)).
  Notation p := (Z.to_nat (Z.abs j - 1)).
  Notation xs := (a_Ured an ++ [0]).
  Hypotheses (Hok : truss_ok c ms) (Hsz : sizes_ok c ms an) (Hld : loads_ok c an) (Hpr : props_ok c ms an)
    (Hf0 : gather (concat (a_forces an)) (a_DOF1 an) = Ok (a_f0red an)) (HU : length (a_Ured an) = c_ndof1 c)
    (Hj : (1 <= Z.abs j <= Z.of_nat n)%Z) (Hsol : solves n solve) (Hn : (1 <= c_ndof1 c)%nat).
  Hypothesis Hsort : forall l, Permutation (argsortF l) (seq 0 (length l)).
  Variables (an2 : analysis R) (Km : list (list R)).
  Hypotheses (HK : dfdx (stiffness c) j xs an = Ok (an2, Km)) (Hreg : regular c ms an (a_U an2)) (Hns : nonsingular n Km).
  Hypothesis Hst : calm c ms an (a_U an2).

  Lemma dx_length du dlpf : length (expand_dxmax n (DxVec [du; dlpf])) = n.
  Proof. cbn [expand_dxmax]. rewrite app_length, map_length, repeat_length. cbn [length]. lia. Qed.
  Lemma dx_nth du dlpf : nth p (expand_dxmax n (DxVec [du; dlpf])) 0 = if (Z.abs j =? Z.of_nat n)%Z then dlpf else du.
  Proof.
    cbn [expand_dxmax]. destruct (Z.eqb_spec (Z.abs j) (Z.of_nat n)) as [E|E].
    - rewrite app_nth2 by (rewrite map_length, repeat_length; lia). rewrite map_length, repeat_length. replace (p - (n - 1))%nat with 0%nat by lia. reflexivity.
    - rewrite app_nth1 by (rewrite map_length, repeat_length; lia).
      rewrite (nth_indep _ 0 (1 * du)) by (rewrite map_length, repeat_length; lia).
      change (1 * du) with ((fun o => fmul o du) (f1 (F:=R))). rewrite map_nth, nth_repeat. numR. ring.
  Qed.

  Lemma small_path tau : 0 < tau <= 1 -> exists eta C, 0 < eta /\ 0 < C /\ forall ftol xtol, 0 < ftol -> 0 < xtol ->
    exists N, forall cfg du dlpf jp fuel k g an0, let d := if (Z.abs j =? Z.of_nat n)%Z then dlpf else du in
      cf_jfixed cfg = true -> cf_ftol cfg = ftol -> cf_xtol cfg = xtol -> (Z.of_nat N <= cf_nfev cfg)%Z -> 1 + tau <= cf_dxtol cfg ->
      cf_stepcontrol cfg = false -> (forall x, length x = n -> beyond_limit cfg x = Ok false) -> cf_incs cfg = Z.of_nat k ->
      0 < d <= eta -> INR k * (C * d) <= eta ->
      equilibrium c xs xs false (set_j j an) = Ok (an0, g) -> bounded (c_ndof1 c) d g ->
      exists s recs, pathfollow solve argsortF (equilibrium c) (stiffness c) (a_Ured an) an (DxVec [du; dlpf]) (Some j) jp cfg (S fuel) = Ok s /\
        ps_out s = repeat MIncr k /\ ps_res s = (xs, an) :: recs /\ length recs = k /\
        forall q x a, nth_error recs q = Some (x, a) -> within n (INR (S q) * (C * d)) x xs /\
          Rabs (nth p x 0 - (nth p xs 0 + INR (S q) * (IZR (Z.sgn j) * d))) <= INR (S q) * (tau * d) /\
          x = a_Ured a ++ [a_lpf a] /\ alike c ms an a /\
          exists h, gather (a_g a) (a_DOF1 an) = Ok h /\ bounded (c_ndof1 c) (tau * d) h /\ evaluated c ms an j x h a.
  Proof.
    intros Htau. assert (Hxs : length xs = n) by (rewrite app_length, HU; cbn; lia).
    destruct (small_increments c ms an j solve argsortF xs Hok Hsz Hld Hpr Hf0 Hxs Hj Hsol Hn Hsort an2 Km HK Hreg Hns tau Hst Htau) as (eta & C & H1 & H2 & H).
    exists eta, C. split; [exact H1|]. split; [exact H2|]. intros ftol xtol Hft Hxt. destruct (H ftol xtol Hft Hxt) as [N HN]. exists N.
    intros cfg du dlpf jp fuel k g an0 d Hjf Ef Ex HNf Hdx Hsc Hlim Hin Hd Hk Heq Hb.
    unfold pathfollow. cbv zeta. rewrite Hjf. cbn [negb]. rewrite Hin, Nat2Z.id. change (@f0 R NumR) with 0 in *. rewrite Hxs.
    destruct (HN cfg (expand_dxmax n (DxVec [du; dlpf])) fuel d 0 Hjf Ef Ex HNf Hdx Hsc Hlim (dx_length _ _) Hd k
      (Pf an xs j jp (expand_dxmax n (DxVec [du; dlpf])) 4 [(xs, an)] []) g an0 (dx_length _ _) (dx_nth _ _))
      as (s & recs & E1 & E2 & E3 & E4 & E5).
    - split; [exact Hxs|]. intros i Hi. cbn [ps_x]. unfold Rminus. rewrite Rplus_opp_r, Rabs_R0. lra.
    - lra.
    - apply like_self. exact Hsz.
    - reflexivity.
    - exact Heq.
    - exact Hb.
    - exists s, recs. split; [exact E1|]. split; [exact E2|]. split; [exact E3|]. split; [exact E4|]. exact E5.
  Qed.
End Path.

(** ** A fresh model *)
Lemma scatter_zeros m dof (U : list (v3 R)) : NoDup dof -> scatter (zeros3 m) dof (repeat 0 (length dof)) = Ok U -> U = zeros3 m.
Proof.
  intros Hd H. destruct (scatter_ok _ _ _ _ Hd (repeat_length _ _) H) as (L & F1 & F2).
  apply vflat_inj. apply nth_error_ext. intros k. destruct (in_dec Nat.eq_dec k dof) as [Hi|Hi]; [|exact (F1 k Hi)].
  apply In_nth_error in Hi. destruct Hi as [i Hi]. rewrite (F2 i k Hi), vflat_zeros. change (@f0 R NumR) with 0.
  assert (Hl : (i < length dof)%nat) by (apply nth_error_Some; congruence).
  assert (Hk : (k < 3 * m)%nat).
  { unfold scatter in H. destruct (forallb _ dof) eqn:E; [|discriminate]. rewrite forallb_forall in E. specialize (E k (nth_error_In _ _ Hi)). apply Nat.ltb_lt in E.
    unfold zeros3 in E. rewrite repeat_length in E. exact E. }
  rewrite (nth_error_repeat (0:R) (length dof) i), (nth_error_repeat (0:R) (3 * m) k). destruct (Nat.ltb_spec i (length dof)), (Nat.ltb_spec k (3 * m)); try lia. reflexivity.
Qed.

Lemma sub_nonzero (p q : v3 R) : p <> q -> len (vsub q p) <> 0.
Proof.
  intros H E. apply H. destruct p as [x y z], q as [x' y' z']. unfold len, vdot, vsub, vmap2 in E. cbn in E.
  pose proof (Rle_0_sqr (x' - x)) as P1. pose proof (Rle_0_sqr (y' - y)) as P2. pose proof (Rle_0_sqr (z' - z)) as P3. unfold Rsqr in *.
  apply sqrt_eq_0 in E; [|lra].
  assert (Sq : forall t, t * t = 0 -> t = 0) by (intros t Ht; apply Rmult_integral in Ht; tauto).
  assert (x' - x = 0) by (apply Sq; lra). assert (y' - y = 0) by (apply Sq; lra). assert (z' - z = 0) by (apply Sq; lra). f_equal; lra.
Qed.
Lemma row_of_pair {A} (ns : list (Z * A)) d l : In l (map fst ns) -> In (l, row_of (map fst ns) (map snd ns) d l) ns.
Proof.
  induction ns as [|[a v] ns IH]; cbn [map fst snd row_of In]; [tauto|]. destruct (Z.eqb_spec l a) as [->|H]; [left; reflexivity|].
  intros [E|E]; [congruence|]. right. apply IH, E.
Qed.

Lemma firstn_zeros k : firstn k (repeat (0:R) (S k)) = repeat 0 k.
Proof. induction k as [|k IH]; [reflexivity|]. cbn [repeat firstn] in *. now rewrite IH. Qed.

(** No member has been strained before the first step. *)
Lemma starts_unstrained argsortZ m ns ms bs fs m1 u1 nh eh fh an : described m ns ms bs fs -> build argsortZ m = Ok m1 -> m_built m1 = Some u1 ->
  step_starts (e_rows fh) [] 0 (set_lpf f0 (set_Vred (a_Ured (u_an u1) ++ [f0]) (u_an u1))) an -> unstrained (ctx_of m1 u1 nh eh) ms an.
Proof.
  intros Hd Hb Eu (_ & _ & _ & _ & S5) k b Hk El. pose proof Hd as (_ & _ & _ & (eh0 & He & Hms) & _).
  destruct (build_inv _ _ _ Hb) as (nh0 & eh1 & nh1 & bh & fh1 & D0 & D1 & an1 & E1 & E2 & Ef' & Eb & Eo & C1 & C2 & Hd0 & Hd1 & Han & Em).
  cbv zeta in *. assert (eh0 = eh1) by congruence. subst eh0.
  pose proof Hms as (Hlab & _). assert (Lel : length (el_labels eh1) = length ms) by (rewrite Hlab; apply map_length).
  assert (H2 : existsb (Z.eqb 2) (el_mtype eh1) = true).
  { apply existsb_exists. exists 2%Z. split; [|reflexivity]. destruct Hms as (_ & _ & Ht & _). rewrite Ht. apply in_map_iff. exists b. rewrite El. split; [reflexivity|]. eapply nth_error_In, Hk. }
  rewrite H2 in *. unfold analysis_build in Han. apply bind_ok in Han. destruct Han as (ur & _ & Han). injection Han as <-.
  assert (Ean : a_state an = a_state (u_an u1)) by (rewrite S5; reflexivity).
  rewrite Em in Eu. cbn [m_built] in Eu. injection Eu as <-. cbn [u_an a_state] in Ean.
  exists []. unfold state_row. rewrite Ean, Em. cbn. rewrite Lel. 
  rewrite nth_error_repeat. destruct (Nat.ltb_spec k (length ms)); [reflexivity|]. assert (k < length ms)%nat by (apply nth_error_Some; congruence). lia.
Qed.

Section Fresh.
  Variables (argsortZ : list Z -> list nat) (argsortF : list R -> list nat) (solve : list (list R) -> list R -> list R).
  Variables (m : model R) (ns : list (Z * v3 R)) (ms : list (member R)) (bs : list (Z * list Z)) (fs : list (Z * list R)).
  Variables (m1 : model R) (u1 : built R) (nh : nodeH R) (eh : elemH R) (fh : forceH R) (j : Z).
  Notation c := (ctx_of m1 u1 nh eh).
  Notation n := (S (u_ndof1 u1)).
  Notation p := (Z.to_nat (Z.abs j - 1)).
  Hypotheses (HA : argsort_ok argsortZ) (Hsort : forall l, Permutation (argsortF l) (seq 0 (length l))) (Hd : described m ns ms bs fs)
    (Hel : forall b, In b ms -> elastic_at_first b)
    (Hax : forall b p q, In b ms -> In (mb_a b, p) ns -> In (mb_b b, q) ns -> p <> q)
    (Hb : build argsortZ m = Ok m1) (Eu : m_built m1 = Some u1) (En : m_nodes m1 = Some nh) (Ee : m_elems m1 = Some eh) (Ef : m_forces m1 = Some fh)
    (Hwd : forall r, In r (e_rows fh) -> (3 <= length r)%nat)
    (Hn : (1 <= u_ndof1 u1)%nat) (Hj : (1 <= Z.abs j <= Z.of_nat n)%Z) (Hsol : solves n solve).

  (** The first step of a new model starts at rest; [a2], [Km] is the first matrix. *)
  Definition at_rest (an a2 : analysis R) (Km : list (list R)) : Prop :=
    truss_ok c ms /\ sizes_ok c ms an /\ loads_ok c an /\ props_ok c ms an /\ gather (concat (a_forces an)) (a_DOF1 an) = Ok (a_f0red an) /\
    a_Ured an = repeat 0 (u_ndof1 u1) /\ a_U an = zeros3 (length ns) /\ a_U a2 = zeros3 (length ns) /\ (forall k, nth k (concat (a_fconst an)) 0 = 0) /\
    (forall b, In b ms -> len (axis0 c b) <> 0) /\ dfdx (stiffness c) j (repeat 0 n) an = Ok (a2, Km) /\ regular c ms an (a_U a2) /\
    step_starts (e_rows fh) [] 0 (set_lpf f0 (set_Vred (a_Ured (u_an u1) ++ [f0]) (u_an u1))) an /\
    step_setup (e_rows fh) 0 (Rs (set_lpf f0 (set_Vred (a_Ured (u_an u1) ++ [f0]) (u_an u1))) (u_R u1) (u_lpf_end u1) []) = Ok an.

  Lemma starts_at_rest : exists an a2 Km, at_rest an a2 Km.
  Proof.
    destruct (build_reached _ _ _ _ _ _ _ HA Hd Hb)
      as (nh' & eh' & fh' & u' & ns' & B1 & B2 & B3 & B4 & Hns' & Hp & _ & Hfa & Htr & (r0 & HR & _) & Hle & _ & HU & HU0 & _ & HUr & Hre).
    assert (nh' = nh) by congruence. assert (eh' = eh) by congruence. assert (fh' = fh) by congruence. assert (u' = u1) by congruence. subst nh' eh' fh' u'.
    rewrite B3 in Hfa. destruct Hfa as (F1 & F2 & F3). rewrite Forall_forall in F3. rewrite B1 in Hns'. destruct Hns' as [N1 N2].
    destruct Hre as (Hsz & _ & _ & _).
    set (prev := set_lpf f0 (set_Vred (a_Ured (u_an u1) ++ [f0]) (u_an u1))) in *.
    assert (Hszp : sizes_ok c ms prev) by exact Hsz.
    assert (Hrows : length (e_rows fh) = length (c_labels c)).
    { rewrite F2. unfold rows_for. rewrite !map_length. cbn [ctx_of c_labels]. rewrite N1. now rewrite map_length. }
    assert (Hw3 : (3 * 1 <= e_width fh)%nat).
    { destruct (e_rows fh) as [|r rs] eqn:Er.
      - exfalso. cbn [length] in Hrows. pose proof Hsz as (_ & _ & _ & _ & _ & _ & _ & _ & _ & Hin & Hnn & _).
        cbn [ctx_of c_ndof1] in Hnn. destruct (a_DOF1 (u_an u1)) as [|p0 l0]; [cbn in Hnn; lia|]. specialize (Hin p0 (or_introl eq_refl)). lia.
      - rewrite <- (F3 r (or_introl eq_refl)). apply Hwd. now left. }
    assert (Hnn : u_ndof1 u1 = length (a_DOF1 (u_an u1))) by (pose proof Hsz as (_ & _ & _ & _ & _ & _ & _ & _ & _ & _ & H & _); exact H).
    assert (Hnd : NoDup (a_DOF1 (u_an u1))) by (pose proof Hsz as (_ & _ & _ & _ & _ & _ & _ & _ & H & _); exact H).
    assert (Hcol : forall r, In r (columns 0 (e_rows fh)) -> length r = 3%nat) by (apply (columns_len _ _ F3); lia).
    assert (Hcl : length (concat (columns 0 (e_rows fh))) = (3 * length (c_labels c))%nat).
    { rewrite (concat_len 3) by exact Hcol. unfold columns. rewrite map_length. lia. }
    (* the start object of the step *)
    set (s0 := Rs prev (u_R u1) (u_lpf_end u1) []).
    assert (Hset : exists an, step_setup (e_rows fh) 0 s0 = Ok an).
    { unfold step_setup. destruct (const_total _ _ F3 (r_lpf_end s0) 0 ltac:(lia) ltac:(lia)) as (fc & ->). cbn [bind].
      destruct (gather_ok (concat (block 0 (e_rows fh))) (a_DOF1 (r_an s0))) as [r Er]; [|rewrite Er; cbn [bind]; eauto].
      intros i Hi. change (block 0 (e_rows fh)) with (columns 0 (e_rows fh)). rewrite Hcl. pose proof Hsz as (_ & _ & _ & _ & _ & _ & _ & _ & _ & H & _). apply H, Hi. }
    destruct Hset as (an & Ean). pose proof (step_setup_ok _ _ _ _ Ean) as Hs. cbn [r_lpf_end r_an s0] in Hs. rewrite Hle in Hs.
    pose proof Hs as (S1 & (S2 & S2') & S3 & S4 & S5).
    assert (Hsza : sizes_ok c ms an) by (rewrite S5; exact Hsz).
    assert (Hfrow : forall i r, nth_error (a_fconst an) i = Some r -> length r = 3%nat /\ forall d, (d < 3)%nat -> nth d r 0 = 0).
    { intros i r Hi. assert (Hil : (i < length (e_rows fh))%nat) by (rewrite <- S2; apply nth_error_Some; congruence).
      destruct (nth_error (e_rows fh) i) as [row|] eqn:E; [|apply nth_error_None in E; lia].
      destruct (S2' _ _ E) as (fr & G1 & G2 & G3). assert (fr = r) by congruence. subst fr.
      assert (Hr3 : length r = 3%nat). { rewrite G2. apply Hcol. unfold columns. apply in_map_iff. exists row. split; [reflexivity|]. eapply nth_error_In, E. }
      split; [exact Hr3|]. intros d Hdd. rewrite Hr3 in G3. specialize (G3 d Hdd). cbn [history seq fold_left] in G3. now apply nth_error_nth. }
    assert (Hlda : loads_ok c an).
    { split; [|rewrite S3; exact Hcl]. rewrite (concat_len 3); [lia|]. intros r Hr. apply In_nth_error in Hr. destruct Hr as [i Hi]. apply (Hfrow i r Hi). }
    assert (Hfc : forall k, nth k (concat (a_fconst an)) 0 = 0).
    { clear - Hfrow. assert (G : forall r, In r (a_fconst an) -> forall d, nth d r 0 = 0).
      { intros r Hr d. apply In_nth_error in Hr. destruct Hr as [i Hi]. destruct (Hfrow i r Hi) as [L H]. destruct (lt_dec d 3); [auto|]. apply nth_overflow. lia. }
      revert G. generalize (a_fconst an). induction l as [|r l IH]; intros G k; [destruct k; reflexivity|]. cbn [concat].
      destruct (lt_dec k (length r)); [rewrite app_nth1 by lia; apply G; left; reflexivity|]. rewrite app_nth2 by lia. apply IH. intros r' Hr'. apply G. right. exact Hr'. }
    assert (Hpra : props_ok c ms an).
    { intros k b Hk. destruct (Hel b (nth_error_In _ _ Hk)) as (L1 & L2). split; [exact L1|]. destruct (mb_law b) eqn:El; [exact L2|].
      destruct L2 as (E & K & Sy & rest & -> & _). split; [cbn; lia|]. destruct (starts_unstrained _ _ _ _ _ _ _ _ nh eh _ an Hd Hb Eu Hs k b Hk El) as [r Er]. eauto. }
    assert (HDa : a_DOF1 an = a_DOF1 (u_an u1)) by (rewrite S5; reflexivity).
    assert (HUa : a_Ured an = repeat 0 (u_ndof1 u1)) by (rewrite S5; exact HUr).
    assert (Hf0 : gather (concat (a_forces an)) (a_DOF1 an) = Ok (a_f0red an)) by (rewrite S3, HDa; exact S4).
    assert (Hx0 : a_Ured an ++ [0] = repeat 0 n) by (rewrite HUa, <- repeat_cons; reflexivity).
    assert (Hlr : length (a_f0red an) = c_ndof1 c) by (apply gather_length in Hf0; rewrite Hf0, HDa, <- Hnn; reflexivity).
    destruct (dfdx_total c ms (repeat 0 n) an j Htr Hsza Hlda Hpra (repeat_length _ _) Hlr ltac:(rewrite repeat_length; exact Hj)) as (a2 & Km & EK & EU).
    assert (Hrl : removelast (repeat 0 n) = repeat 0 (length (a_DOF1 an))) by (rewrite <- Hx0, removelast_last, HUa, HDa, Hnn; reflexivity).
    assert (HUz : a_U an = zeros3 (length ns)) by (rewrite S5; exact HU).
    rewrite Hrl, HUz in EU. apply scatter_zeros in EU; [|rewrite HDa; exact Hnd].
    assert (Hax0 : forall b, In b ms -> len (axis0 c b) <> 0).
    { intros b Hbm. unfold axis0. cbn [ctx_of c_labels c_coords]. rewrite N1, N2. apply sub_nonzero. destruct Hd as (_ & _ & _ & _ & _ & _ & _ & _ & Hmem).
      destruct (Hmem b Hbm) as (M1 & M2 & _). apply (Hax b); [exact Hbm| |].
      - eapply Permutation_in; [exact Hp|]. apply row_of_pair. eapply Permutation_in; [apply Permutation_sym, Permutation_map, Hp|exact M1].
      - eapply Permutation_in; [exact Hp|]. apply row_of_pair. eapply Permutation_in; [apply Permutation_sym, Permutation_map, Hp|exact M2]. }
    assert (Hrg : regular c ms an (a_U a2)).
    { intros k b Hk. pose proof (nth_error_In _ _ Hk) as Hbm. split; [exact (Hax0 b Hbm)|]. rewrite EU, axis_rest. split; [exact (Hax0 b Hbm)|].
      destruct (Hel b Hbm) as (_ & L2). destruct (mb_law b) eqn:El; [exact I|]. destruct L2 as (E & K & Sy & rest & -> & H1 & H2 & H3).
      destruct (starts_unstrained _ _ _ _ _ _ _ _ nh eh _ an Hd Hb Eu Hs k b Hk El) as [r ->]. cbn [smooth_at]. split; [exact H1|]. split; [exact H2|].
      unfold yield_before. destruct (Req_EM_T 0 0); [|lra]. split; [exact H3|].
      unfold stretch_of. rewrite axis_rest. replace (E * (len (axis0 c b) / len (axis0 c b) - 1 - 0)) with 0 by (field; exact (Hax0 b Hbm)). rewrite Rabs_R0. lra. }
    exists an, a2, Km. unfold at_rest. repeat (split; [assumption|]). exact Ean.
  Qed.


  Lemma small_run_full an a2 Km tau : at_rest an a2 Km -> nonsingular n Km -> 0 < tau <= 1 -> exists eta C, 0 < eta /\ 0 < C /\ forall fz xz, exists N, forall st k fuel, let d := step_size st j n in
    small_control st j n k tau -> s_ftol st = fz -> s_xtol st = xz -> (Z.of_nat N <= s_nfev st)%Z -> s_nstatev st = s_nstatev (m_set m1) ->
    0 < d <= eta -> INR k * (C * d) <= eta ->
    exists m2 out lg, ran_as argsortF solve (with_settings st m1) (S fuel) m2 out [lg] /\ lg_start lg = an /\ lg_out lg = repeat MIncr k /\ length (lg_recs lg) = k /\
      forall q x a, nth_error (lg_recs lg) q = Some (x, a) -> x = a_Ured a ++ [a_lpf a] /\ length x = n /\ bounded n (INR (S q) * (C * d)) x /\
        Rabs (nth p x 0 - INR (S q) * (IZR (Z.sgn j) * d)) <= INR (S q) * (tau * d) /\
        exists h, gather (a_g a) (a_DOF1 a) = Ok h /\ bounded (u_ndof1 u1) (tau * d) h /\ alike c ms an a /\ evaluated c ms an j x h a.
  Proof.
    intros HR0 Hns Htau. destruct HR0 as (Htr & Hsza & Hlda & Hpra & Hf0 & HUa & HUz & EU & Hfc & Hax0 & EK & Hrg & Hs & Ean).
    destruct (build_reached _ _ _ _ _ _ _ HA Hd Hb)
      as (nh' & eh' & fh' & u' & ns' & B1 & B2 & B3 & B4 & _ & _ & _ & _ & _ & (r0 & HR & _) & Hle & _ & _ & _ & _ & _ & Hre).
    assert (nh' = nh) by congruence. assert (eh' = eh) by congruence. assert (fh' = fh) by congruence. assert (u' = u1) by congruence. subst nh' eh' fh' u'.
    destruct Hre as (Hsz & _ & _ & _).
    set (prev := set_lpf f0 (set_Vred (a_Ured (u_an u1) ++ [f0]) (u_an u1))) in *. set (s0 := Rs prev (r0 :: u_R u1) (u_lpf_end u1) []) in *.
    change (step_setup (e_rows fh) 0 s0 = Ok an) in Ean.
    pose proof Hs as (S1 & (S2 & S2') & S3 & S4 & S5).
    assert (Hnn : u_ndof1 u1 = length (a_DOF1 (u_an u1))) by (pose proof Hsz as (_ & _ & _ & _ & _ & _ & _ & _ & _ & _ & H & _); exact H).
    assert (Hnd : NoDup (a_DOF1 (u_an u1))) by (pose proof Hsz as (_ & _ & _ & _ & _ & _ & _ & _ & H & _); exact H).
    assert (HDa : a_DOF1 an = a_DOF1 (u_an u1)) by (rewrite S5; reflexivity).
    assert (Hx0 : a_Ured an ++ [0] = repeat 0 n) by (rewrite HUa, <- repeat_cons; reflexivity).
    rewrite <- Hx0 in EK.
    assert (Hlu : length (a_Ured an) = c_ndof1 c) by (rewrite HUa, repeat_length; reflexivity).
    pose proof (starts_unstrained _ _ _ _ _ _ _ _ nh eh _ an Hd Hb Eu Hs) as Hun.
    assert (Hcalm : calm c ms an (a_U a2)).
    { intros k b Hk El. pose proof (nth_error_In _ _ Hk) as Hbm. destruct (Hel b Hbm) as (_ & L2). rewrite El in L2. destruct L2 as (E & K & Sy & rest & Emb & H1 & H2 & H3).
      destruct (Hun k b Hk El) as [r Er]. exists E, K, Sy, rest, 0, 0, r. split; [exact Emb|]. split; [exact Er|]. unfold yield_before. destruct (Req_EM_T 0 0); [|lra].
      rewrite EU. unfold stretch_of. rewrite axis_rest. replace (E * (len (axis0 c b) / len (axis0 c b) - 1 - 0)) with 0 by (field; exact (Hax0 b Hbm)). rewrite Rabs_R0. exact H3. }
    destruct (small_path c ms an j solve argsortF Htr Hsza Hlda Hpra Hf0 Hlu Hj Hsol Hn Hsort a2 Km EK Hrg Hns Hcalm tau Htau) as (eta & C & H1 & H2 & H).
    exists eta, C. split; [exact H1|]. split; [exact H2|]. intros fz xz.
    destruct (H (pow10neg fz) (pow10neg xz) (pow10neg_pos fz) (pow10neg_pos xz)) as [N HN]. exists N. clear H.
    intros st k fuel d (T1 & T2 & T3 & T4 & T5 & T6 & T7 & l & T8 & T9) Hfz Hxz HNf Hnse Hdd Hk.
    (* the start is balanced *)
    assert (Hx0l : length (a_Ured an ++ [0]) = S (c_ndof1 c)) by (rewrite Hx0, repeat_length; reflexivity).
    destruct (proj1 (C15_evaluations_succeed c ms (set_j j an) Htr Hsza Hlda Hpra) (a_Ured an ++ [0]) (a_Ured an ++ [0]) false Hx0l Hx0l) as (a3 & g & Eg).
    assert (EU3 : a_U a3 = zeros3 (length ns)).
    { destruct (C15_residual _ _ _ _ _ (set_j j an) _ _ Htr Hsza Hlda Hx0l Eg) as (G & _). cbn [a_U a_DOF1 set_j] in G. rewrite HUz, Hx0 in G.
      change (c_ndof1 c) with (u_ndof1 u1) in G. rewrite Hnn, <- HDa in G. rewrite firstn_zeros in G. apply scatter_zeros in G; [exact G|rewrite HDa; exact Hnd]. }
    assert (Hg0 : bounded (c_ndof1 c) (if (Z.abs j =? Z.of_nat (S (c_ndof1 c)))%Z then s_dlpf st else s_du st) g).
    { intros i _. rewrite (rest_residual c ms (set_j j an) Htr Hsza Hlda Hel (unstrained_unyielded _ _ _ Hun) Hax0 Hfc _ _ _ _ _ _ Hx0l ltac:(left; apply last_last) Eg EU3). rewrite Rabs_R0.
      change (0 <= d). lra. }
    assert (Hlim : forall x : list R, length x = S (c_ndof1 c) -> beyond_limit (pf_config st (l, None) (Z.of_nat k)) x = Ok false).
    { intros x Hx. unfold beyond_limit. cbn [cf_xlimit pf_config]. unfold py_get.
      assert (Ep : exists i, py_pos (length x) (l - 1) = Ok i /\ (i < length x)%nat).
      { change (c_ndof1 c) with (u_ndof1 u1) in Hx. unfold py_pos.
        destruct (Z.leb_spec 0 (l - 1)), (Z.ltb_spec (l - 1) (Z.of_nat (length x))), (Z.leb_spec (- Z.of_nat (length x)) (l - 1)), (Z.ltb_spec (l - 1) 0); cbn [andb]; try lia; eexists; (split; [reflexivity|lia]). }
      destruct Ep as (i & -> & Hi). cbn [bind]. destruct (nth_error x i) eqn:E; [reflexivity|apply nth_error_None in E; lia]. }
    destruct (HN (pf_config st (l, None) (Z.of_nat k)) (s_du st) (s_dlpf st) (s_jpre st) fuel k g a3 T1
      ltac:(cbn [cf_ftol pf_config]; now rewrite Hfz) ltac:(cbn [cf_xtol pf_config]; now rewrite Hxz) HNf T4 T3 Hlim eq_refl Hdd Hk Eg Hg0)
      as (pf & recs & P1 & P2 & P3 & P4 & P5).
    set (ms1 := with_settings st m1).
    assert (Ec : ctx_of ms1 u1 nh eh = c) by (unfold ctx_of, ms1; cbn; now rewrite Hnse).
    assert (Erun : exists m2 out, run argsortF solve ms1 (S fuel) = Ok (m2, out)).
    { unfold run. cbv zeta. change (m_set ms1) with st. replace (1 <? s_log st)%Z with false by (symmetry; apply Z.ltb_ge; lia). cbn [andb].
      change (m_built ms1) with (m_built m1). change (m_nodes ms1) with (m_nodes m1). change (m_elems ms1) with (m_elems m1). change (m_forces ms1) with (m_forces m1).
      rewrite Eu, En, Ee, Ef, HR. rewrite T5. change (Z.to_nat 1) with 1%nat. cbn [seq foldM]. 
      change (Ctx (n_labels nh) (n_coords nh) eh (u_nnodes u1) (u_ndof1 u1) (s_nstatev st)) with (ctx_of ms1 u1 nh eh). rewrite Ec.
      assert (E : exists s', run_step argsortF solve c st (e_rows fh) 1 (S fuel) s0 0 = Ok s').
      { unfold run_step. rewrite T7, T8. cbn [at_step bind]. rewrite Ean. cbn [bind].
        change (fun V V0 w a => equilibrium c V V0 w a) with (equilibrium c). change (fun U a => stiffness c U a) with (stiffness c).
        rewrite T2, P1. cbn [bind]. rewrite P3. cbn [tl r_R s0]. rewrite HR. change [r0; r0] with ([r0] ++ [r0]).
        rewrite write_results, app_assoc, copy_U_snoc, rev_app_distr. cbn [rev app bind]. eexists. reflexivity. }
      destruct E as (s' & Es'). unfold s0 in Es'. rewrite HR in Es'. change (set_lpf f0 (set_Vred (a_Ured (u_an u1) ++ [f0]) (u_an u1))) with prev. rewrite Es'. cbn [bind]. eauto. }
    destruct Erun as (m2 & out & Er). destruct (run_ran_as _ _ _ _ _ _ Er) as (logs & HRA). { change (m_set ms1) with st. lia. }
    pose proof HRA as (_ & Hll & Hne & u & nh' & eh' & fh' & r0' & rest' & u2 & C1 & C2 & C3 & C4 & C5 & C6 & C7 & _).
    change (m_set ms1) with st in *. change (m_built ms1) with (m_built m1) in C1. change (m_nodes ms1) with (m_nodes m1) in C2. change (m_elems ms1) with (m_elems m1) in C3. change (m_forces ms1) with (m_forces m1) in C4.
    assert (u = u1) by congruence. assert (nh' = nh) by congruence. assert (eh' = eh) by congruence. assert (fh' = fh) by congruence. subst u nh' eh' fh'.
    destruct logs as [|lg [|? ?]]; [congruence| |cbn [length] in Hll; lia].
    cbn [steps_from] in C7. destruct C7 as (Q1 & (incs & xl & pf' & R1 & R2 & R3 & R4 & R5) & _). apply at_step_in in R1, R2. rewrite Ec in R3. fold prev in Q1. rewrite Hle in Q1.
    assert (Elg : lg_start lg = an).
    { destruct Q1 as (G1 & (G2 & G2') & G3 & G4 & G5).
      assert (Efc : a_fconst (lg_start lg) = a_fconst an).
      { apply nth_error_ext. intros i. destruct (nth_error (e_rows fh) i) as [row|] eqn:E.
        - destruct (S2' _ _ E) as (fr & X1 & X2 & X3). destruct (G2' _ _ E) as (fr' & Y1 & Y2 & Y3). rewrite X1, Y1. f_equal.
          apply nth_error_ext. intros d0. destruct (lt_dec d0 (length fr)) as [Hlt|Hge]; [rewrite X3, Y3 by lia; reflexivity|].
          rewrite !(proj2 (nth_error_None _ _)) by lia. reflexivity.
        - apply nth_error_None in E. rewrite !(proj2 (nth_error_None _ _)) by lia. reflexivity. }
      assert (Ef0 : a_f0red (lg_start lg) = a_f0red an) by congruence.
      assert (Efo : a_forces (lg_start lg) = a_forces an) by congruence.
      assert (Est : a_step (lg_start lg) = a_step an) by congruence.
      rewrite G5, S5, Efc, Ef0, Efo, Est. reflexivity. }
    rewrite T7 in R1. injection R1 as <-. rewrite T8 in R2. injection R2 as <-. rewrite Elg, T2, P1 in R3. injection R3 as <-.
    rewrite P3, Elg in R4. injection R4 as R4. 
    exists m2, out, lg. split; [exact HRA|]. split; [exact Elg|]. split; [rewrite <- R5; exact P2|]. rewrite <- R4. split; [exact P4|].
    intros q x a Hq. destruct (P5 q x a Hq) as (W1 & W2 & W3 & W4 & h & W5 & W6 & W7). split; [exact W3|]. split; [exact (proj1 W1)|]. split.
    { intros i Hi. pose proof (proj2 W1 i Hi) as G. rewrite Hx0, nth_repeat in G. unfold Rminus in G. rewrite Ropp_0, Rplus_0_r in G. exact G. }
    split; [rewrite Hx0, nth_repeat, Rplus_0_l in W2; exact W2|]. exists h. split; [|split; [exact W6|split; [exact W4|exact W7]]].
    replace (a_DOF1 a) with (a_DOF1 an); [exact W5|]. destruct W4 as ((_ & _ & G & _) & _). now rewrite G.
  Qed.

  Hypothesis Hreg : forall an a2 K, step_starts (e_rows fh) [] 0 (set_lpf f0 (set_Vred (a_Ured (u_an u1) ++ [f0]) (u_an u1))) an ->
    dfdx (stiffness c) j (repeat 0 n) an = Ok (a2, K) -> nonsingular n K.

  Lemma small_run tau : 0 < tau <= 1 -> exists eta C, 0 < eta /\ 0 < C /\ forall fz xz, exists N, forall st k fuel, let d := step_size st j n in
    small_control st j n k tau -> s_ftol st = fz -> s_xtol st = xz -> (Z.of_nat N <= s_nfev st)%Z -> s_nstatev st = s_nstatev (m_set m1) ->
    0 < d <= eta -> INR k * (C * d) <= eta ->
    exists m2 out lg, ran_as argsortF solve (with_settings st m1) (S fuel) m2 out [lg] /\ lg_out lg = repeat MIncr k /\ length (lg_recs lg) = k /\
      forall q x a, nth_error (lg_recs lg) q = Some (x, a) -> x = a_Ured a ++ [a_lpf a] /\ length x = n /\ bounded n (INR (S q) * (C * d)) x /\
        Rabs (nth p x 0 - INR (S q) * (IZR (Z.sgn j) * d)) <= INR (S q) * (tau * d) /\
        exists h, gather (a_g a) (a_DOF1 a) = Ok h /\ bounded (u_ndof1 u1) (tau * d) h.
  Proof.
    intros Ht. destruct starts_at_rest as (an & a2 & Km & HR). pose proof HR as (_ & _ & _ & _ & _ & _ & _ & _ & _ & _ & HK & _ & Hs & _).
    destruct (small_run_full an a2 Km tau HR (Hreg an a2 Km Hs HK) Ht) as (eta & C & He & HC & H).
    exists eta, C. split; [exact He|]. split; [exact HC|]. intros fz xz. destruct (H fz xz) as [N HN]. exists N.
    intros st k fuel d H1 H2 H3 H4 H5 H6 H7. destruct (HN st k fuel H1 H2 H3 H4 H5 H6 H7) as (m2 & out & lg & E1 & _ & E2 & E3 & E4).
    exists m2, out, lg. split; [exact E1|]. split; [exact E2|]. split; [exact E3|]. intros q x a Hq. destruct (E4 q x a Hq) as (G1 & G2 & G3 & G4 & h & G5 & G6 & _).
    split; [exact G1|]. split; [exact G2|]. split; [exact G3|]. split; [exact G4|]. exists h. split; [exact G5|exact G6].
  Qed.
End Fresh.

(** ** Load control: the stiffness at rest of a truss without mechanism is regular *)
Section Stiff.
  Variables (c : ctx R) (ms : list (member R)) (an : analysis R) (j : Z).
  Notation n := (S (c_ndof1 c)).
  Hypotheses (Hok : truss_ok c ms) (Hsz : sizes_ok c ms an) (Hf : length (a_f0red an) = c_ndof1 c)
    (Hel : forall b, In b ms -> elastic_at_first b /\ 0 < EA b) (Hun : unyielded c ms an) (Hax : forall b, In b ms -> len (axis0 c b) <> 0) (Hj : Z.abs j = Z.of_nat n).
  Hypothesis Hrig : forall v : Z -> v3 R,
    (forall p l, nth_error (c_labels c) (p / 3) = Some l -> ~ In p (a_DOF1 an) -> vget (v l) (p mod 3) = 0) ->
    (forall b, In b ms -> vdot (axis0 c b) (vsub (v (mb_b b)) (v (mb_a b))) = 0) -> forall l, In l (c_labels c) -> v l = vzero.

  Lemma rsum_split (f : nat -> R) k : rsum (map f (seq 0 (S k))) = rsum (map f (seq 0 k)) + f k.
  Proof.
    rewrite seq_S, map_app. cbn [map Nat.add]. generalize (map f (seq 0 k)). intros l. induction l as [|x l IH]; cbn [app rsum fold_right] in *; unfold rsum in *; cbn [fold_right app] in *; lra.
  Qed.

  Lemma rest_nonsingular V a2 Km m : length V = n -> dfdx (stiffness c) j V an = Ok (a2, Km) -> a_U a2 = zeros3 m -> nonsingular n Km.
  Proof.
    intros HV HK HU. destruct (dfdx_entry c ms j V an a2 Km Hok Hsz HV Hf ltac:(lia) HK) as [_ HE].
    assert (Ht : exists a1 K, stiffness c (removelast V) (set_j j an) = Ok (a1, K) /\ a_U a1 = a_U a2).
    { pose proof HK as H. unfold dfdx in H. mstep H. mstep H. destruct a0 as [a1 K]. mstep H. destruct (forallb _ a0); [|discriminate]. injection H as <- _. exists a1, K. split; [exact Ha0|reflexivity]. }
    destruct Ht as (a1 & K & HS & EU). assert (Hszj : sizes_ok c ms (set_j j an)) by exact Hsz.
    destruct (stiff_entry c ms _ _ _ _ Hok Hszj HS) as [_ HKE].
    intros y Hy Hz.
    set (x := removelast y). destruct (snoc_split y (c_ndof1 c) Hy) as [Ey Lx]. fold x in Ey, Lx. set (s := last y 0) in *.
    assert (Hnx : forall k, (k < c_ndof1 c)%nat -> nth k y 0 = nth k x 0) by (intros k Hk; rewrite Ey, app_nth1 by lia; reflexivity).
    assert (Hns : nth (c_ndof1 c) y 0 = s) by (rewrite Ey, app_nth2 by lia; rewrite Lx, Nat.sub_diag; reflexivity).
    assert (Es : s = 0).
    { pose proof (Hz (c_ndof1 c) ltac:(lia)) as H0. unfold row_times in H0. rewrite Hy, rsum_split in H0. cbv beta in H0.
      rewrite (HE (c_ndof1 c) (c_ndof1 c)) in H0 by lia. unfold J_entry in H0. rewrite Nat.eqb_refl in H0.
      replace (Z.to_nat (Z.abs j - 1)) with (c_ndof1 c) in H0 by lia. rewrite Nat.eqb_refl, Hns in H0.
      rewrite (rsum_ext _ (fun _ => 0)) in H0.
      - assert (G : forall l : list nat, rsum (map (fun _ => 0) l) = 0) by (induction l as [|a l IH]; cbn [map rsum fold_right]; [reflexivity|unfold rsum in IH; rewrite IH; ring]). rewrite G in H0. lra.
      - intros k Hk. apply in_seq in Hk. rewrite (HE (c_ndof1 c) k) by lia. unfold J_entry. rewrite Nat.eqb_refl.
        replace (Z.to_nat (Z.abs j - 1)) with (c_ndof1 c) by lia. destruct (Nat.eqb_spec k (c_ndof1 c)); [lia|ring]. }
    assert (HKx : forall i, (i < c_ndof1 c)%nat -> row_times K x i = 0).
    { intros i Hi. pose proof (Hz i ltac:(lia)) as H0. unfold row_times in H0. rewrite Hy, rsum_split, Hns, Es in H0. unfold row_times. rewrite Lx.
      rewrite (rsum_ext _ (fun k => nth k (nth i Km []) 0 * nth k y 0)); [lra|]. intros k Hk. apply in_seq in Hk. rewrite Hnx by lia. f_equal.
      rewrite HE, HKE by lia. unfold J_entry. destruct (Nat.eqb_spec i (c_ndof1 c)); [lia|]. destruct (Nat.eqb_spec k (c_ndof1 c)); [lia|].
      rewrite EU. reflexivity. }
    assert (HR : reduced_form K x = 0).
    { unfold reduced_form. rewrite Lx. rewrite (rsum_ext _ (fun _ => 0)).
      - generalize (seq 0 (c_ndof1 c)). induction l as [|a l IH]; cbn [map rsum fold_right]; [reflexivity|unfold rsum in IH; rewrite IH; ring].
      - intros i Hi. apply in_seq in Hi. rewrite HKx by lia. ring. }
    destruct (spread_exists c ms (set_j j an) x Hok Hszj Lx) as [v Hv].
    rewrite (proj2 (C51_form _ _ _ _ _ _ Hok Hszj HS) x v Lx Hv), EU, HU in HR.
    assert (Hmf : forall k b, nth_error ms k = Some b -> member_form c (set_j j an) (zeros3 m) v (k, b) =
      EA b / len (axis0 c b) * (vdot (direction c (zeros3 m) b) (vsub (v (mb_b b)) (v (mb_a b)))) ^ 2).
    { intros k b Hk. pose proof (nth_error_In _ _ Hk) as Hb. destruct (Hel b Hb) as [L L4]. pose proof (Hax b Hb) as Ha.
      unfold member_form, force_of, axial_of, stretch_of, stress_at, tangent_at, EA. cbn [fst snd]. cbv zeta. rewrite axis_rest.
      replace (len (axis0 c b) / len (axis0 c b) - 1) with 0 by (field; exact Ha).
      destruct (hooke_rest b _ L (Hun k b Hk) 0) as [st E']. change (state_row c (set_j j an) k) with (state_row c an k). rewrite E'. cbn. rewrite ?axis_rest. field. exact Ha. }
    assert (Hlen : forall b, In b ms -> 0 < len (axis0 c b)) by (intros b Hb; pose proof (Hax b Hb); assert (0 <= len (axis0 c b)) by apply sqrt_pos; lra).
    assert (Hv0 : forall l, In l (c_labels c) -> v l = vzero).
    { apply Hrig; [exact (proj2 Hv)|]. intros b Hb. destruct (In_member ms b Hb) as (k & Hin & Hk).
      assert (G : member_form c (set_j j an) (zeros3 m) v (k, b) = 0).
      { refine (rsum_nonneg_0 (member_form c (set_j j an) (zeros3 m) v) (combine (seq 0 (length ms)) ms) _ HR _ Hin).
        intros [k' b'] Hin'. apply member_In in Hin'. rewrite (Hmf _ _ Hin'). pose proof (nth_error_In _ _ Hin') as Hb'.
        apply Rmult_le_pos; [|apply pow2_ge_0]. apply Rlt_le, Rdiv_lt_0_compat; [apply Hel, Hb'|apply Hlen, Hb']. }
      rewrite (Hmf _ _ Hk) in G. pose proof (Hlen b Hb) as HL. pose proof (proj2 (Hel b Hb)) as HE1.
      assert (Hq : 0 < EA b / len (axis0 c b)) by (apply Rdiv_lt_0_compat; assumption).
      apply Rmult_integral in G. destruct G as [G|G]; [lra|]. assert (Gd : vdot (direction c (zeros3 m) b) (vsub (v (mb_b b)) (v (mb_a b))) = 0).
      { cbn in G. rewrite Rmult_1_r in G. apply Rmult_integral in G. tauto. }
      unfold direction in Gd. rewrite axis_rest in Gd. revert Gd. generalize (vsub (v (mb_b b)) (v (mb_a b))). intros [wx wy wz]. destruct (axis0 c b) as [ax ay az] eqn:Ea.
      unfold vdot, vscale, vmap. cbn. intros Gd. assert (Hi : / len (V3 ax ay az) <> 0) by (apply Rinv_neq_0_compat; lra).
      apply (Rmult_eq_reg_l (/ len (V3 ax ay az))); [|exact Hi]. rewrite Rmult_0_r, <- Gd. ring. }
    intros i Hi. destruct (Nat.eq_dec i (c_ndof1 c)) as [->|Hne]; [rewrite Hns; exact Es|]. rewrite Hnx by lia.
    assert (Hil : (i < c_ndof1 c)%nat) by lia. pose proof Hsz as (_ & _ & _ & _ & _ & _ & _ & _ & HD & HD' & Hn & _).
    pose proof (nth_nth_error (a_DOF1 an) i 0%nat ltac:(lia)) as Ei. set (p := nth i (a_DOF1 an) 0%nat) in *.
    assert (Hp3 : (p / 3 < length (c_labels c))%nat) by (apply Nat.div_lt_upper_bound; [lia|]; apply HD'; eapply nth_error_In; eauto).
    pose proof (nth_nth_error (c_labels c) _ 0%Z Hp3) as Lp.
    rewrite <- (proj1 Hv i p _ Ei Lp), (Hv0 _ (nth_error_In _ _ Lp)), vget_vzero. reflexivity.
  Qed.
End Stiff.

Section LoadRegular.
  Variables (argsortZ : list Z -> list nat).
  Variables (m : model R) (ns : list (Z * v3 R)) (ms : list (member R)) (bs : list (Z * list Z)) (fs : list (Z * list R)).
  Variables (m1 : model R) (u1 : built R) (nh : nodeH R) (eh : elemH R) (fh : forceH R) (j : Z).
  Notation c := (ctx_of m1 u1 nh eh).
  Notation n := (S (u_ndof1 u1)).
  Hypotheses (HA : argsort_ok argsortZ) (Hd : described m ns ms bs fs)
    (Hel : forall b, In b ms -> elastic_at_first b /\ 0 < EA b)
    (Hax : forall b p q, In b ms -> In (mb_a b, p) ns -> In (mb_b b, q) ns -> p <> q) (Hrig : rigid ns ms bs)
    (Hb : build argsortZ m = Ok m1) (Eu : m_built m1 = Some u1) (En : m_nodes m1 = Some nh) (Ee : m_elems m1 = Some eh) (Ef : m_forces m1 = Some fh)
    (Hj : Z.abs j = Z.of_nat n).

  Lemma load_regular an a2 K : step_starts (e_rows fh) [] 0 (set_lpf f0 (set_Vred (a_Ured (u_an u1) ++ [f0]) (u_an u1))) an ->
    dfdx (stiffness c) j (repeat 0 n) an = Ok (a2, K) -> nonsingular n K.
  Proof.
    intros Hst HK.
    destruct (build_reached _ _ _ _ _ _ _ HA Hd Hb)
      as (nh' & eh' & fh' & u' & ns' & B1 & B2 & B3 & B4 & Hns' & Hp & _ & _ & Htr & _ & _ & _ & HU & _ & _ & HUr & Hre).
    assert (nh' = nh) by congruence. assert (eh' = eh) by congruence. assert (fh' = fh) by congruence. assert (u' = u1) by congruence. subst nh' eh' fh' u'.
    destruct Hre as (Hsz & _ & _ & _).
    set (prev := set_lpf f0 (set_Vred (a_Ured (u_an u1) ++ [f0]) (u_an u1))) in *.
    pose proof Hd as Hd0. pose proof Hst as Hst0. destruct Hst as (S1 & _ & S3 & S4 & S5).
    assert (Hsza : sizes_ok c ms an) by (rewrite S5; exact Hsz).
    assert (Hnn : u_ndof1 u1 = length (a_DOF1 (u_an u1))) by (pose proof Hsz as (_ & _ & _ & _ & _ & _ & _ & _ & _ & _ & H & _); exact H).
    assert (Hnd : NoDup (a_DOF1 (u_an u1))) by (pose proof Hsz as (_ & _ & _ & _ & _ & _ & _ & _ & H & _); exact H).
    assert (HDa : a_DOF1 an = a_DOF1 (u_an u1)) by (rewrite S5; reflexivity).
    assert (HUz : a_U an = zeros3 (length ns)) by (rewrite S5; exact HU).
    assert (Hlr : length (a_f0red an) = c_ndof1 c) by (apply gather_length in S4; rewrite S4; symmetry; exact Hnn).
    assert (HUa2 : a_U a2 = zeros3 (length ns)).
    { pose proof HK as H. unfold dfdx in H. mstep H. mstep H. destruct a0 as [a1 K1]. mstep H. destruct (forallb _ a0); [|discriminate]. injection H as <- _.
      cbn [set_Kred a_U]. unfold stiffness in Ha0. apply bind_ok in Ha0. destruct Ha0 as (b1 & Hsd & Ha0).
      destruct b1 as [[an1 Ux] lx]. apply bind_ok in Ha0. destruct Ha0 as (an2 & Hl & Ha0). apply bind_ok in Ha0. destruct Ha0 as (Kr & _ & Ha0). injection Ha0 as <- _.
      apply elem_loop_frame in Hl. destruct Hl as ((E1 & _) & _). apply (prepare_U _ _ _ _ _ _ _ _ (u_ndof1 u1)) in Hsd; [|reflexivity].
      cbn in E1. transitivity (a_U an1); [first [exact E1|symmetry; exact E1]|].
      assert (Hrl : removelast (repeat 0 n) = repeat 0 (length (a_DOF1 an))) by (rewrite HDa, <- Hnn; change (repeat 0 n) with (0 :: repeat 0 (u_ndof1 u1)); rewrite repeat_cons, removelast_last; reflexivity).
      destruct Hsd as [_ Hsd]. rewrite Hrl, repeat_length, HDa, <- Hnn in Hsd. destruct (Hsd eq_refl) as [Hsc _]. cbn [set_j a_U a_DOF1] in Hsc. rewrite HUz, HDa, Hnn in Hsc.
      eapply scatter_zeros; [exact Hnd|exact Hsc]. }
    destruct Hd as (Hns & Hbs & Hfs & (eh0 & He & Hms) & H2 & Hnod & Hml & H3 & Hmem).
    destruct (build_tables _ _ _ _ _ _ HA Hns Hbs Hfs Hnod H2 Hb)
      as (Mb & Mf & ns2 & w & Hns2 & Hp2 & _ & Hb' & _ & _ & _ & _ & _).
    rewrite B1 in Hns2. destruct Hns2 as [N1 N2].
    assert (Hlen : length ns2 = length ns) by (apply Permutation_length, Hp2).
    destruct (build_dofs _ _ _ _ HA Hb Hb') as (u & Eu' & HD1 & _).
    { unfold rows_for. rewrite !map_length. lia. }
    { intros r Hr. unfold rows_for in Hr. rewrite map_map in Hr. apply in_map_iff in Hr. destruct Hr as (l & <- & _).
      cbn [snd]. destruct (in_dec Z.eq_dec l (map fst bs)) as [Hi|Hi].
      - apply in_map_iff in Hi. destruct Hi as ([l' v] & E & Hi). cbn in E. subst l'.
        rewrite (row_for_In bs _ l v (proj1 Mb) Hi). apply H3. apply in_map_iff. exists (l, v). auto.
      - rewrite row_for_notin by exact Hi. reflexivity. }
    assert (u = u1) by congruence. subst u.
    assert (Hrow : forall b l, In b ms -> In l (map fst ns) -> In (l, row_of (c_labels c) (c_coords c) vzero l) ns).
    { intros b l Hbm Hl. cbn [ctx_of c_labels c_coords]. rewrite N1, N2. eapply Permutation_in; [exact Hp2|]. apply row_of_pair.
      eapply Permutation_in; [apply Permutation_sym, Permutation_map, Hp2|exact Hl]. }
    refine (rest_nonsingular c ms an j Htr Hsza Hlr Hel (unstrained_unyielded _ _ _ (starts_unstrained _ _ _ _ _ _ _ _ nh eh _ an Hd0 Hb Eu Hst0)) _ Hj _ (repeat 0 n) a2 K (length ns) (repeat_length _ _) HK HUa2).
    - intros b Hbm. destruct (Hmem b Hbm) as (M1 & M2 & _). apply sub_nonzero. apply (Hax b); [exact Hbm| |]; eapply Hrow; eauto.
    - intros v Hv Hvb l Hl. apply Hrig.
      + intros l' d Hl' Hd3 Hne.
        assert (Hl2 : In l' (map fst ns2)) by (eapply Permutation_in; [apply Permutation_sym, Permutation_map, Hp2|exact Hl']).
        destruct (In_nth_error _ _ Hl2) as [i Hi].
        specialize (Hv (3 * i + d)%nat l'). replace ((3 * i + d) / 3)%nat with i in Hv by (apply (Nat.div_unique _ _ _ d); lia).
        replace ((3 * i + d) mod 3)%nat with d in Hv by (apply (Nat.mod_unique _ _ i d); lia). apply Hv.
        { cbn [ctx_of c_labels]. rewrite N1. exact Hi. }
        rewrite HDa, HD1. intros (r & Hr & Hr1).
        replace ((3 * i + d) / 3)%nat with i in Hr by (apply (Nat.div_unique _ _ _ d); lia).
        replace ((3 * i + d) mod 3)%nat with d in Hr1 by (apply (Nat.mod_unique _ _ i d); lia).
        unfold rows_for in Hr. rewrite map_map in Hr. cbn [snd] in Hr. rewrite (map_nth_error _ _ _ Hi) in Hr. injection Hr as <-.
        apply Hne. apply nth_error_nth with (d := 0%Z) in Hr1. exact Hr1.
      + intros b p q Hbm Hpn Hqn. destruct (Hmem b Hbm) as (M1 & M2 & _). rewrite <- (Hvb b Hbm). f_equal. unfold axis0.
        pose proof (Hrow b _ Hbm M1) as R1. pose proof (Hrow b _ Hbm M2) as R2.
        assert (Hu : forall l x y, In (l, x) ns -> In (l, y) ns -> x = y).
        { intros l0 x y. clear - Hnod. induction ns as [|[a v0] r IH]; [easy|]. cbn [map fst] in Hnod. inversion Hnod as [|? ? Hni Hnd]; subst.
          assert (G : forall z, In (a, z) r -> False) by (intros z Hz; apply Hni, in_map_iff; exists (a, z); auto).
          intros [E|Hx] [E'|Hy].
          - congruence.
          - injection E as -> _. destruct (G _ Hy).
          - injection E' as -> _. destruct (G _ Hx).
          - exact (IH Hnd Hx Hy). }
        rewrite (Hu _ _ _ R1 Hpn), (Hu _ _ _ R2 Hqn). reflexivity.
      + cbn [ctx_of c_labels] in Hl. rewrite N1 in Hl. eapply Permutation_in; [apply Permutation_map, Hp2|exact Hl].
  Qed.
End LoadRegular.

Lemma build_handlers A (m m1 : model R) : build A m = Ok m1 -> exists nh eh, m_nodes m1 = Some nh /\ m_elems m1 = Some eh.
Proof.
  intros H. destruct (build_inv A m m1 H) as (nh0 & eh & nh & bh & fh & D0 & D1 & an & _ & _ & _ & _ & _ & _ & _ & _ & _ & _ & E).
  rewrite E. cbn. eauto.
Qed.
