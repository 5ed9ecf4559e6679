(** * C60: Newton's method converges near a regular point

    In exact arithmetic, with a solver that returns the solution of every
    nonsingular system.  [n] is the number of unknowns: the active displacements
    and the load factor. *)
From Coq Require Import List ZArith Bool Arith Lia Reals Lra.
Import ListNotations.
From Verif Require Import Num NumR NumFix Vec Handlers Material Analysis Truss Equil Solver ListFacts SpecMaterial SpecMech SpecMechR EquilFacts MechFacts
  MaterialFacts SpecForm TangentFacts SpecState FrameFacts EvalFacts ExTruss PropMech SpecNewton BallFacts OneFacts JacFacts NearFacts NewtonFacts GaussFacts.
Local Open Scope R_scope.

(** Let [xs] be a solution of the extended equations (equilibrium and control
    equation [V[j] = Vmax]) at which the members have nonzero length and no
    material is on its yield limit, and let the extended matrix be nonsingular
    there.  However small [q > 0] is, from every start close enough to [xs]
    Newton's method reports success, whatever positive tolerances were asked for,
    within a number of iterations that depends on the tolerances only; and each
    iteration reduces the distance to [xs] to a [q]-th of it. *)
Theorem C60_convergence : forall c ms an V0 j Vmax solve xs an1 an2 Km, let n := S (c_ndof1 c) in
  truss_ok c ms -> sizes_ok c ms an -> loads_ok c an -> props_ok c ms an ->
  gather (concat (a_forces an)) (a_DOF1 an) = Ok (a_f0red an) ->
  length V0 = n -> length xs = n -> (1 <= Z.abs j <= Z.of_nat n)%Z -> solves n solve ->
  f_ext (equilibrium c) V0 j Vmax false xs an = Ok (an1, repeat 0 n) ->
  dfdx (stiffness c) j xs an = Ok (an2, Km) -> regular c ms an (a_U an2) -> nonsingular n Km ->
  forall q, 0 < q < 1 -> exists r, 0 < r /\ forall ftol xtol, 0 < ftol -> 0 < xtol ->
    exists N, forall x d nfev, within n d x xs -> 0 <= d <= r -> (Z.of_nat N <= nfev)%Z ->
      exists an' o, newton solve (f_ext (equilibrium c) V0 j Vmax false) (dfdx (stiffness c) j) x nfev ftol xtol an = Ok (an', o) /\
        no_success o = true /\ (1 <= no_n o <= Z.of_nat N)%Z /\
        within n (q ^ Z.to_nat (no_n o) * d) (no_x o) xs.
Proof.
  intros c ms an V0 j Vmax solve xs an1 an2 Km n Hok Hsz Hld Hpr Hf0 HV0 Hxs Hj Hsol HF HK Hreg Hns q Hq.
  assert (H0 : F0 c an V0 j Vmax xs = repeat 0 n) by (unfold F0; rewrite HF; reflexivity).
  destruct (superlinear c ms an j solve xs Hok Hsz Hld Hpr Hf0 Hxs Hj Hsol an2 Km HK Hreg Hns V0 Vmax q HV0 H0 Hq) as (r & Hr & H).
  exists r. split; [exact Hr|]. intros ftol xtol Hft Hxt. destruct (H ftol xtol Hft Hxt) as [N HN]. exists N.
  intros x d nfev Hx Hd Hnf. destruct (HN x d nfev Hx Hd Hnf) as (s' & o & E & E1 & _ & E2 & E3). exists s', o. auto.
Qed.
Print Assumptions C60_convergence.

(** Small steps succeed.  Let the forces balance at [xs], with a regular state and
    a nonsingular extended matrix as above.  Then there are [eta > 0] and [C] such
    that Newton's method, started at [xs] with the controlled component to be
    changed by any [dx] of size at most [eta], reports success within [N]
    iterations; the solution found differs from [xs] by at most [C * |dx|], and the
    remaining residual of the extended equations is a [q]-th of [|dx|] after one
    iteration, a [q^2]-th after two, and so on. *)
Theorem C60_small_steps : forall c ms an V0 j solve xs an1 an2 Km, let n := S (c_ndof1 c) in
  truss_ok c ms -> sizes_ok c ms an -> loads_ok c an -> props_ok c ms an ->
  gather (concat (a_forces an)) (a_DOF1 an) = Ok (a_f0red an) ->
  length V0 = n -> length xs = n -> (1 <= Z.abs j <= Z.of_nat n)%Z -> solves n solve ->
  equilibrium c xs V0 false (set_j j an) = Ok (an1, repeat 0 (c_ndof1 c)) ->
  dfdx (stiffness c) j xs an = Ok (an2, Km) -> regular c ms an (a_U an2) -> nonsingular n Km ->
  forall q, 0 < q < 1 -> exists eta C, 0 < eta /\ 0 < C /\ forall ftol xtol, 0 < ftol -> 0 < xtol ->
    exists N, forall dx nfev, Rabs dx <= eta -> (Z.of_nat N <= nfev)%Z ->
      let Vmax := nth (Z.to_nat (Z.abs j - 1)) xs 0 + dx in
      exists an' o an3 f, newton solve (f_ext (equilibrium c) V0 j Vmax false) (dfdx (stiffness c) j) xs nfev ftol xtol an = Ok (an', o) /\
        no_success o = true /\ (1 <= no_n o <= Z.of_nat N)%Z /\ within n (C * Rabs dx) (no_x o) xs /\
        f_ext (equilibrium c) V0 j Vmax false (no_x o) an = Ok (an3, f) /\ length f = n /\
        bounded n (q ^ Z.to_nat (no_n o) * Rabs dx) f.
Proof.
  intros c ms an V0 j solve xs an1 an2 Km n Hok Hsz Hld Hpr Hf0 HV0 Hxs Hj Hsol HE HK Hreg Hns q Hq.
  destruct (converges c ms an j solve xs Hok Hsz Hld Hpr Hf0 Hxs Hj Hsol an2 Km HK Hreg Hns q Hq) as (r & C & Hr & HC & H).
  exists (r / C), C. split; [apply Rdiv_lt_0_compat; assumption|]. split; [exact HC|].
  intros ftol xtol Hft Hxt. destruct (H ftol xtol Hft Hxt) as [N HN]. exists N. intros dx nfev Hdx Hnf Vmax.
  assert (HF : F0 c an V0 j Vmax xs = map fopp (repeat 0 (c_ndof1 c)) ++ [- dx]).
  { unfold F0, f_ext. rewrite HE. cbn [bind]. unfold py_get, py_pos.
    replace (Z.ltb (Z.abs j - 1) 0) with false by (symmetry; apply Z.ltb_ge; lia).
    match goal with |- context [if ?b then Ok _ else _] => replace b with true end.
    2:{ symmetry. rewrite ?andb_true_iff, ?Z.leb_le, ?Z.ltb_lt. rewrite Hxs. unfold n in *. lia. }
    cbn [bind]. rewrite (nth_error_nth' xs 0) by (rewrite Hxs; unfold n in *; lia). cbn [value bind].
    f_equal. f_equal. unfold Vmax. cbn. ring. }
  assert (Hb : bounded n (Rabs dx) (F0 c an V0 j Vmax xs)).
  { intros i Hi. rewrite HF. destruct (Nat.eq_dec i (c_ndof1 c)) as [->|Hne].
    - rewrite app_nth2 by (rewrite map_length, repeat_length; lia). rewrite map_length, repeat_length, Nat.sub_diag. cbn.
      rewrite Rabs_Ropp. lra.
    - rewrite app_nth1 by (rewrite map_length, repeat_length; unfold n in Hi; lia).
      replace 0 with (fopp (F:=R) 0) at 2 by (cbn; ring). rewrite map_nth, nth_repeat. cbn. rewrite Ropp_0, Rabs_R0. apply Rabs_pos. }
  assert (HCb : C * Rabs dx <= r).
  { apply Rle_trans with (C * (r / C)); [apply Rmult_le_compat_l; lra|]. right. field. lra. }
  assert (Hx : within n r xs xs).
  { split; [exact Hxs|]. intros i Hi. unfold Rminus. rewrite Rplus_opp_r, Rabs_R0. lra. }
  destruct (HN V0 Vmax xs (Rabs dx) nfev HV0 Hx Hb (Rabs_pos dx) HCb Hnf) as (s' & o & E & E1 & E2 & E3 & E4 & E5).
  destruct (like_fn c ms an V0 j Vmax Hok Hsz Hld Hpr HV0 Hf0 Hj (no_x o) an (proj1 E4) (like_self c ms an Hsz)) as (an3 & E6 & _).
  exists s', o, an3, (F0 c an V0 j Vmax (no_x o)). do 5 (split; [assumption|]). split; [|exact E5].
  exact (F0_length c ms an V0 j Vmax Hok Hsz Hld Hpr HV0 Hj (no_x o) (proj1 E4)).
Qed.
Print Assumptions C60_small_steps.

(** Solvers as required exist: Gaussian elimination with pivoting, used by the
    test runs of the model, is one, for any number of unknowns. *)
Theorem C60_solver : forall n, solves n (gauss (F:=R)).
Proof. exact gauss_solves. Qed.
Print Assumptions C60_solver.

(** The unloaded example truss meets the hypotheses of both. *)
Lemma ex_axes : axis0 ex_ctx (Mb 7 1 2 UmatEl [210; 0; 0] [1]) = V3 3 0 0 /\ axis ex_ctx (zeros3 3) (Mb 7 1 2 UmatEl [210; 0; 0] [1]) = V3 3 0 0 /\
  axis0 ex_ctx (Mb 9 2 5 UmatPl [100; 10; 1] [2]) = V3 0 4 0 /\ axis ex_ctx (zeros3 3) (Mb 9 2 5 UmatPl [100; 10; 1] [2]) = V3 0 4 0.
Proof.
  unfold axis0, axis, place, vsub, vadd, vmap2. cbn. repeat split; f_equal; ring.
Qed.
Lemma ex_lens : len (V3 3 0 0) = 3 /\ len (V3 0 4 0) = 4.
Proof. split; unfold len; cbn; apply sqrt_sq; lra. Qed.
Lemma ex_pl e : -1/100 <= e <= 1/100 -> forall de, umat_elplast_iso e de [100; 10; 1] (Some [0; 0]) = Ok (100 * e, 100, Some [1; 0]).
Proof.
  intros He de. rewrite umat_pl_eq. cbn zeta. unfold yield_before. destruct (Req_EM_T 0 0) as [_|]; [|lra].
  destruct (Rle_dec _ 0) as [_|H].
  - do 2 f_equal; [f_equal; ring|]. do 2 f_equal. ring.
  - exfalso. apply H. replace (100 * (e - 0)) with (100 * e) by ring. apply Rle_minus. apply Rabs_le. lra.
Qed.

Lemma ex_members : forall k m, nth_error ex_ms k = Some m ->
  force_of ex_ctx ex_an (zeros3 3) k m = 0 /\ 0 < axial_of ex_ctx ex_an (zeros3 3) k m.
Proof.
  destruct ex_axes as (A1 & A2 & A3 & A4). destruct ex_lens as [L1 L2].
  intros [|[|k]] m Hm; cbn in Hm; [| |destruct k; discriminate]; injection Hm as <-; unfold force_of, axial_of, stretch_of, stress_at, tangent_at.
  - rewrite A1, A2, L1. cbn. split; [field|lra].
  - rewrite A3, A4, L2. change (state_row ex_ctx ex_an 1) with (Some [0; 0]). cbn [mb_law mb_mat mb_geo umat].
    rewrite (ex_pl (4 / 4 - 1)) by lra. cbn. split; [field|lra].
Qed.

Lemma ex_K : exists a b, 0 < a /\ 0 < b /\ K_entry ex_ctx ex_ms ex_an (zeros3 3) 3 3 = a /\ K_entry ex_ctx ex_ms ex_an (zeros3 3) 3 4 = 0 /\
  K_entry ex_ctx ex_ms ex_an (zeros3 3) 4 3 = 0 /\ K_entry ex_ctx ex_ms ex_an (zeros3 3) 4 4 = b.
Proof.
  destruct ex_axes as (A1 & A2 & A3 & A4). destruct ex_lens as [L1 L2].
  destruct (ex_members 0 _ eq_refl) as [F1 X1]. destruct (ex_members 1 _ eq_refl) as [F2 X2].
  exists (axial_of ex_ctx ex_an (zeros3 3) 0 (Mb 7 1 2 UmatEl [210; 0; 0] [1]) / 3),
         (axial_of ex_ctx ex_an (zeros3 3) 1 (Mb 9 2 5 UmatPl [100; 10; 1] [2]) / 4).
  split; [lra|]. split; [lra|].
  unfold K_entry, ex_ms. cbn [length seq combine map fst snd].
  unfold mem_K, direction. cbn zeta. cbn [fst snd].
  rewrite A1, A2, A3, A4, L1, L2, F1, F2.
  set (x := axial_of _ _ _ 0 _). set (y := axial_of _ _ _ 1 _).
  unfold rsum, StiffFacts.sg, lab. cbn. repeat split; field.
Qed.

Example C60_meets : exists an1 an2 an3 Km,
  f_ext (equilibrium ex_ctx) [0; 0; 0] 1 0 false [0; 0; 0] ex_an = Ok (an1, repeat 0 3) /\
  equilibrium ex_ctx [0; 0; 0] [0; 0; 0] false (set_j 1 ex_an) = Ok (an3, repeat 0 2) /\
  dfdx (stiffness ex_ctx) 1 [0; 0; 0] ex_an = Ok (an2, Km) /\ regular ex_ctx ex_ms ex_an (a_U an2) /\ nonsingular 3 Km /\
  gather (concat (a_forces ex_an)) (a_DOF1 ex_an) = Ok (a_f0red ex_an).
Proof.
  destruct (dfdx_total ex_ctx ex_ms [0; 0; 0] ex_an 1 ex_truss ex_sizes ex_loads ex_props eq_refl eq_refl)
    as (an2 & Km & E & EU); [cbn; lia|].
  cbn in EU. injection EU as EU. change (zeros3 3 = a_U an2) in EU.
  assert (Hszj : sizes_ok ex_ctx ex_ms (set_j 1 ex_an)) by exact ex_sizes.
  destruct (ex_quants [] []) as [qs Hqs].
  destruct (equilibrium_total ex_ctx ex_ms [0; 0; 0] [0; 0; 0] false (set_j 1 ex_an) [] [] qs ex_truss Hszj ex_loads eq_refl eq_refl Hqs) as (an3 & g & Eg).
  pose proof (C15_residual ex_ctx ex_ms [0; 0; 0] [0; 0; 0] false (set_j 1 ex_an) an3 g ex_truss Hszj ex_loads eq_refl Eg) as (R1 & R2 & R3).
  pose proof (C15_internal_forces _ _ _ _ _ _ _ _ ex_truss Hszj Eg) as (I1 & I2).
  cbn in R1. injection R1 as R1.
  assert (EU3 : a_U an3 = zeros3 3) by (rewrite <- R1; reflexivity).
  destruct ex_axes as (A1 & A2 & A3 & A4). destruct ex_lens as [L1 L2].
  assert (Hfz : a_force an3 = [0; 0] \/ exists x y, a_force an3 = [x; y] /\ x = 0 /\ y = 0).
  { right. destruct (I1 0%nat _ eq_refl) as (s & t & st & A & U1 & U2 & _ & _ & U3).
    destruct (I1 1%nat _ eq_refl) as (s' & t' & st' & A' & U1' & U2' & _ & _ & U3').
    cbn in U2, U2'. injection U2 as <-. injection U2' as <-.
    assert (HL : length (a_force an3) = 2%nat).
    { destruct (equilibrium_lengths _ _ _ _ _ _ _ _ ex_truss Hszj Eg) as (_ & _ & _ & _ & _ & _ & _ & Hl & _). exact Hl. }
    destruct (a_force an3) as [|x [|y [|]]]; try discriminate HL. cbn in U3, U3'. injection U3 as ->. injection U3' as ->.
    exists (1 * s), (2 * s'). split; [reflexivity|].
    rewrite EU3 in U1, U1'. unfold stretch_of in U1, U1'. rewrite A1, A2, L1 in U1. rewrite A3, A4, L2 in U1'.
    specialize (U1 0). specialize (U1' 0). change (state_row ex_ctx (set_j 1 ex_an) 1) with (Some [0; 0]) in U1'.
    cbn [mb_law mb_mat umat] in U1, U1'. rewrite (ex_pl (4 / 4 - 1)) in U1' by lra. injection U1' as <- _ _.
    cbn in U1. injection U1 as <- _ _. split; field. }
  assert (Hg : g = [0; 0]).
  { assert (Hf : exists x y, a_force an3 = [x; y] /\ x = 0 /\ y = 0) by (destruct Hfz as [->|H]; [exists 0, 0; auto|exact H]).
    destruct Hf as (x & y & Hf & -> & ->).
    pose proof (I2 2%Z ltac:(cbn; auto)) as Ir. rewrite Hf, EU3 in Ir.
    pose proof (R3 0%nat 3%nat 2%Z eq_refl eq_refl) as G0. pose proof (R3 1%nat 4%nat 2%Z eq_refl eq_refl) as G1.
    rewrite Ir in G0, G1. unfold ex_ms in G0, G1. cbn [combine map] in G0, G1. unfold pull in G0, G1. cbn [fst snd mb_a mb_b Z.eqb Pos.eqb] in G0, G1.
    match type of G0 with context [vscale 0 ?d] => set (d1 := d) in G0, G1 end.
    match type of G0 with context [direction ?x ?y ?z] => set (d2 := direction x y z) in G0, G1 end.
    destruct d1 as [d1x d1y d1z], d2 as [d2x d2y d2z].
    destruct g as [|u [|v [|]]]; try discriminate R2. cbn in G0, G1. rewrite G0, G1. apply f_equal2; [ring|apply f_equal2; [ring|reflexivity]]. }
  subst g.
  exists an3, an2, an3, Km. split; [unfold f_ext; rewrite Eg; cbn; do 2 f_equal; repeat f_equal; ring|]. split; [exact Eg|]. split; [exact E|].
  split; [rewrite <- EU; exact ex_regular|]. split; [|reflexivity].
  destruct (dfdx_entry ex_ctx ex_ms 1 [0; 0; 0] ex_an an2 Km ex_truss ex_sizes eq_refl eq_refl ltac:(cbn; lia) E) as [Hsq HE].
  destruct ex_K as (a & b & Ha & Hb & K1 & K2 & K3 & K4).
  intros v Hv Hz. destruct v as [|v0 [|v1 [|v2 [|]]]]; try discriminate Hv.
  pose proof (Hz 0%nat ltac:(lia)) as Z0. pose proof (Hz 1%nat ltac:(lia)) as Z1. pose proof (Hz 2%nat ltac:(lia)) as Z2.
  rewrite <- EU in HE.
  assert (E00 : ent Km 0 0 = a) by (rewrite HE by (cbn; lia); exact K1).
  assert (E01 : ent Km 0 1 = 0) by (rewrite HE by (cbn; lia); exact K2).
  assert (E02 : ent Km 0 2 = - (1)) by (rewrite HE by (cbn; lia); reflexivity).
  assert (E10 : ent Km 1 0 = 0) by (rewrite HE by (cbn; lia); exact K3).
  assert (E11 : ent Km 1 1 = b) by (rewrite HE by (cbn; lia); exact K4).
  assert (E12 : ent Km 1 2 = - (-1)) by (rewrite HE by (cbn; lia); reflexivity).
  assert (E20 : ent Km 2 0 = 1) by (rewrite HE by (cbn; lia); reflexivity).
  assert (E21 : ent Km 2 1 = 0) by (rewrite HE by (cbn; lia); reflexivity).
  assert (E22 : ent Km 2 2 = 0) by (rewrite HE by (cbn; lia); reflexivity).
  unfold row_times in Z0, Z1, Z2. cbn [length seq map] in Z0, Z1, Z2.
  rewrite E00, E01, E02 in Z0. rewrite E10, E11, E12 in Z1. rewrite E20, E21, E22 in Z2.
  unfold rsum in Z0, Z1, Z2. cbn in Z0, Z1, Z2.
  assert (v0 = 0) by lra. subst v0. assert (v2 = 0) by lra. subst v2. assert (b * v1 = 0) by lra.
  assert (v1 = 0) by nra. subst v1.
  intros [|[|[|i]]] Hi; cbn; auto; lia.
Qed.
