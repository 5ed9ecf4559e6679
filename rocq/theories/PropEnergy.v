(** * C50 forces as the gradient of an energy, exact arithmetic

    Vocabulary: SpecMech.v, SpecMechR.v, SpecEnergy.v. *)
From Coq Require Import List ZArith Bool Arith Lia Reals Lra.
From Coquelicot Require Import Coquelicot.
Import ListNotations.
From Verif Require Import Num NumR Vec Handlers Material Analysis Truss Equil Solver ListFacts SpecMaterial SpecMech SpecMechR SpecEnergy.
From Verif Require Import MaterialFacts EquilFacts MechFacts StiffFacts TangentFacts ExTruss EnergyFacts.
Local Open Scope R_scope.

(** C50: the residual is minus the gradient of the potential energy with respect
    to the active displacements. *)
Theorem C50_gradient : forall c ms u lam V0 w an an' g j,
  truss_ok c ms -> sizes_ok c ms an -> loads_ok c an ->
  length u = c_ndof1 c -> length V0 = S (c_ndof1 c) ->
  equilibrium c (u ++ [lam]) V0 w an = Ok (an', g) -> sound c ms an (a_U an') -> (j < c_ndof1 c)%nat ->
  derivable_pt_lim (fun t => potential c ms an lam (displaced (equilibrium c (set_nth j t u ++ [lam]) V0 w an)))
                   (nth j u 0) (- nth j g 0).
Proof. intros. apply is_derive_Reals. eapply potential_derive; eauto. Qed.
Print Assumptions C50_gradient.

(** C50: the residual vanishes exactly where the potential energy is stationary. *)
Theorem C50_stationary : forall c ms u lam V0 w an an' g,
  truss_ok c ms -> sizes_ok c ms an -> loads_ok c an ->
  length u = c_ndof1 c -> length V0 = S (c_ndof1 c) ->
  equilibrium c (u ++ [lam]) V0 w an = Ok (an', g) -> sound c ms an (a_U an') ->
  (g = repeat 0 (c_ndof1 c) <->
   forall j, (j < c_ndof1 c)%nat ->
     derivable_pt_lim (fun t => potential c ms an lam (displaced (equilibrium c (set_nth j t u ++ [lam]) V0 w an)))
                      (nth j u 0) 0).
Proof.
  intros c ms u lam V0 w an an' g Hok Hsz Hld Hu HV He Hs.
  assert (HG := fun j Hj => C50_gradient c ms u lam V0 w an an' g j Hok Hsz Hld Hu HV He Hs Hj).
  assert (Hlg : length g = c_ndof1 c).
  { assert (Hv : length (u ++ [lam]) = S (c_ndof1 c)) by (rewrite app_length; cbn; lia).
    destruct (residual_formula _ _ _ _ _ _ _ _ Hok Hsz Hld Hv He) as (_ & H & _).
    destruct Hsz as (_ & _ & _ & _ & _ & _ & _ & _ & _ & _ & Hn & _). congruence. }
  split.
  - intros -> j Hj. specialize (HG j Hj). rewrite nth_repeat, Ropp_0 in HG. exact HG.
  - intros H. apply nth_error_ext. intros j. rewrite nth_error_repeat. destruct (Nat.ltb_spec j (c_ndof1 c)) as [Hj|Hj].
    + rewrite (nth_nth_error g j 0) by lia. f_equal.
      pose proof (uniqueness_limite _ _ _ _ (HG j Hj) (H j Hj)). lra.
    + apply nth_error_None. lia.
Qed.
Print Assumptions C50_stationary.

(** C50: the plastic strain returned by the plastic law is the one that spends the
    least energy, and [density] is that least energy. *)
Theorem C50_least : forall E K Sy y p e de s t y' p',
  0 < E -> 0 <= K -> 0 < yield_before Sy y ->
  umat_elplast_iso e de [E; K; Sy] (Some [y; p]) = Ok (s, t, Some [y'; p']) ->
  density UmatPl [E; K; Sy] (Some [y; p]) e = plastic_energy E K (yield_before Sy y) p e (p' - p) /\
  forall d, plastic_energy E K (yield_before Sy y) p e (p' - p) <= plastic_energy E K (yield_before Sy y) p e d.
Proof.
  intros E K Sy y p e de s t y' p' HE HK HY Hu. destruct (density_least E K Sy [] y p [] e HE HK HY) as [A B].
  rewrite <- (B _ _ _ _ _ _ Hu). auto.
Qed.
Print Assumptions C50_least.

Lemma len_nonzero v : 0 < vx v * vx v + vy v * vy v + vz v * vz v -> len v <> 0.
Proof. intros H E. unfold len in E. pose proof (sqrt_lt_R0 _ H). lra. Qed.

(** The example truss in a deformed state in which its plastic member yields meets
    the hypotheses. *)
Example C50_meets : exists an' g, equilibrium ex_ctx ([1; -1] ++ [2]) [0; 0; 0] true ex_an = Ok (an', g) /\
  sound ex_ctx ex_ms ex_an (a_U an') /\
  forall m, nth_error ex_ms 1 = Some m -> 1 < 100 * (stretch_of ex_ctx (a_U an') m - 1).
Proof.
  destruct (ex_equilibrium ([1; -1] ++ [2]) [0; 0; 0] true eq_refl eq_refl) as (an' & g & H). exists an', g. split; [exact H|].
  destruct (residual_formula ex_ctx ex_ms ([1; -1] ++ [2]) [0; 0; 0] true _ _ _ ex_truss ex_sizes ex_loads eq_refl H) as (HS & _). cbn in HS. injection HS as HU.
  rewrite <- HU. clear. split.
  - intros [|[|k]] m Hm; cbn in Hm; [| |destruct k; discriminate]; injection Hm as <-.
    + repeat split; apply len_nonzero; unfold axis, axis0, place, vsub, vadd, vmap2; cbn; lra.
    + split; [apply len_nonzero; unfold axis0, vsub, vmap2; cbn; lra|].
      split; [apply len_nonzero; unfold axis, place, vsub, vadd, vmap2; cbn; lra|].
      change (state_row ex_ctx ex_an 1) with (Some [0; 0]). cbn [mb_law mb_mat]. unfold yield_before. destruct (Req_EM_T 0 0); lra.
  - intros m Hm. cbn in Hm. injection Hm as <-.
    assert (A0 : axis0 ex_ctx (Mb 9 2 5 UmatPl [100; 10; 1] [2]) = V3 0 4 0).
    { unfold axis0, vsub, vmap2. cbn. f_equal; ring. }
    unfold stretch_of. rewrite A0. assert (len (V3 0 4 0) = 4) as -> by (unfold len; cbn; apply sqrt_sq; lra).
    match goal with |- context [len ?x] => assert (Hx : 5 <= len x); [|lra] end.
    unfold len. replace 5 with (sqrt (5 * 5)) by (apply sqrt_square; lra). apply sqrt_le_1_alt.
    unfold axis, place, vsub, vadd, vmap2. cbn. lra.
Qed.

Example C50_least_meets : exists s t y' p', umat_elplast_iso 2 0 [2; 1; 1] (Some [0; 0]) = Ok (s, t, Some [y'; p']) /\ p' = 1.
Proof.
  rewrite umat_pl_eq. cbn zeta. unfold yield_before. destruct (Req_EM_T 0 0) as [_|]; [|lra].
  replace (2 * (2 - 0)) with 4 by ring. rewrite (Rabs_right 4) by lra. destruct (Rle_dec (4 - 1) 0); [lra|].
  do 4 eexists. split; [reflexivity|]. rewrite fsignR. destruct (Rlt_dec 0 4); lra.
Qed.
