(** * Properties of newton() and pathfollow() *)
From Coq Require Import List ZArith Bool Arith Lia Reals Lra.
Import ListNotations.
From Verif Require Import Num NumR NumFix Vec Analysis Solver ListFacts SpecSolver SpecStep SolverFacts PathFacts StepFacts ExPath.

(** ** C24 newton() contract *)
(** A normal return describes a run of 1..nfev iterations that stops at the
    first converged iterate or after nfev of them; conversely every such run is
    what [newton] returns. *)
Theorem C24_newton : forall F (NF : Num F) (S : Type) solve
    (fn : list F -> S -> res (S * list F)) (dfn : list F -> S -> res (S * list (list F)))
    x nfev ftol xtol s s' (o : newton_out F),
  newton solve fn dfn x nfev ftol xtol s = Ok (s', o) <->
  exists ts t, trace solve fn dfn x s (ts ++ [t]) /\
    (forall u, In u ts -> converged ftol xtol u = false) /\
    s' = it_s t /\ no_x o = it_x t /\ no_success o = converged ftol xtol t /\
    no_n o = Z.of_nat (length (ts ++ [t])) /\
    no_fnorm o = euclid (it_f t) /\ no_xnorm o = euclid (it_dx t) /\
    (no_n o <= nfev)%Z /\ (no_success o = false -> no_n o = nfev).
Proof. intros F NF S solve fn dfn. exact (newton_iff solve fn dfn). Qed.
Print Assumptions C24_newton.

Theorem C24_no_iterations : forall F (NF : Num F) (S : Type) solve
    (fn : list F -> S -> res (S * list F)) (dfn : list F -> S -> res (S * list (list F)))
    x nfev ftol xtol s,
  (nfev <= 0)%Z -> newton solve fn dfn x nfev ftol xtol s = Err UnboundLocalError.
Proof. intros F NF S solve fn dfn. exact (newton_none solve fn dfn). Qed.
Print Assumptions C24_no_iterations.

(** x^2 = 2 in fixed-point arithmetic: five iterations from 1. *)
Definition sq_f (x : list fix_) (s : unit) : res (unit * list fix_) :=
  Ok (s, map (fun v => fsub (fmul v v) (q 2 1)) x).
Definition sq_df (x : list fix_) (s : unit) : res (unit * list (list fix_)) :=
  Ok (s, [map (fun v => fmul (q 2 1) v) x]).
Example C24_meets : exists o,
  newton gauss sq_f sq_df [f1] 8 (q 1 1000000) (q 1 1000000) tt = Ok (tt, o) /\
  no_success o = true /\ no_n o = 5%Z.
Proof. eexists. split; [vm_compute; reflexivity|]. split; reflexivity. Qed.
Example C24_meets_fail : exists o,
  newton gauss sq_f sq_df [f1] 3 (q 1 1000000) (q 1 1000000) tt = Ok (tt, o) /\
  no_success o = false /\ no_n o = 3%Z.
Proof. eexists. split; [vm_compute; reflexivity|]. split; reflexivity. Qed.

(** ** C25 what a recorded increment is *)
Theorem C25_records : forall F (NF : Num F) solve argsortF g dg (cfg : pfcfg F) Ured an d j jpre fuel s,
  pathfollow solve argsortF g dg Ured an d j jpre cfg fuel = Ok s ->
  exists recs, ps_res s = (Ured ++ [f0], an) :: recs /\
    records_ok solve g dg cfg (fun _ _ => True) jpre (Ured ++ [f0]) recs (ps_out s).
Proof.
  intros F NF solve argsortF g dg cfg Ured an d j jpre fuel s.
  exact (pathfollow_records F NF solve argsortF g dg cfg (fun _ _ => True) Ured an d j jpre fuel s
           (keeps_True F NF solve argsortF g dg cfg _) I).
Qed.
Print Assumptions C25_records.

(** ** C27 a failed increment is recorded *)
Theorem C27_failed_kept : forall F (NF : Num F) solve argsortF g dg (cfg : pfcfg F) Ured an d j jpre fuel s,
  pathfollow solve argsortF g dg Ured an d j jpre cfg fuel = Ok s ->
  (exists m, In m (ps_out s) /\ error_line m) ->
  exists rs x a, ps_res s = (Ured ++ [f0], an) :: rs ++ [(x, a)] /\
    good_records solve g dg cfg (fun _ _ => True) jpre (Ured ++ [f0]) rs /\
    failed solve g dg cfg (fun _ _ => True) (last (map fst rs) (Ured ++ [f0])) x a /\
    ps_x s = x /\ ps_an s = a.
Proof.
  intros F NF solve argsortF g dg cfg Ured an d j jpre fuel s H (m & Hm & He).
  eapply (pathfollow_ok solve argsortF g dg cfg _ (fun _ _ => True) (fun _ _ => True) jpre) in H;
    [|apply keeps_True|unfold quiet; auto 10|reflexivity|exact Logic.I|auto].
  destruct H as (recs & Hr & _ & Hla & _ & [(_ & Hn & _)|(rs & x' & a & ms & e & -> & Hg & Hf & _)]).
  - destruct (Hn m Hm He).
  - rewrite last_snoc in Hla. injection Hla as -> ->. exists rs, x', a.
    split; [exact Hr|]. split; [eapply good_good; eassumption|]. cbv zeta in Hf. apply fld_failed in Hf.
    split; [|split; reflexivity].
    change (Ured ++ [f0]) with (fst (Ured ++ [f0], an)). rewrite last_map_fst. exact Hf.
Qed.
Print Assumptions C27_failed_kept.

Local Open Scope R_scope.

(** "Every recorded increment was accepted or skipped" is false: with a residual
    that never vanishes the first record is neither. *)
Theorem C27_recorded_not_converged_refuted : exists cfg s x a,
  pathfollow toy_solve toy_sort toy_bad toy_k [0] toy_an (DxVec [1; 1]) (Some 2%Z) false cfg 5 = Ok s /\
  ps_res s = [([0; 0], toy_an); (x, a)] /\
  (forall Q, ~ accepted toy_solve toy_bad toy_k cfg Q [0; 0] x a) /\
  (forall Q b, ~ skipped toy_solve toy_bad toy_k cfg Q b [0; 0] x a).
Proof.
  exists (toy_cfg 1 1 false 1 1 2).
  assert (Hno : forall V0 j m an1 t, f_ext toy_bad V0 j m false (it_x t) an1 = Ok (it_s t, it_f t) ->
                converged (1/10) 10 t = false).
  { intros V0 j m an1 t E. unfold f_ext, toy_bad in E. cbn [bind] in E. mstep E. injection E as _ E.
    unfold converged. rewrite <- E. apply andb_false_iff. left. numR. apply Rltb_false.
    apply Rle_trans with 1; [lra|]. destruct (fnorm_app_le (map fopp [1]) [a - m]) as [H1 _].
    rewrite fnorm_opp, fnorm_one, Rabs_R1 in H1. exact H1. }
  destruct (toy_pass_bad 1 1 false 1 1 2 [1; 1] 0 0 1 toy_an 0 4 [MIncr] 4 eq_refl ltac:(lra))
    as (an' & x & y & _ & _ & E).
  cbn [toy_control bind] in E. change (0 + 1 =? 1)%Z with true in E. cbn iota in E.
  eexists _, [x; y], _. split.
  { rewrite toy_start. change (Z.to_nat 1) with 1%nat. cbn [increments]. rewrite toy_incr by reflexivity.
    cbn [ps_x ps_an ps_j ps_dxmax ps_b ps_out app]. rewrite E. cbn [bind]. reflexivity. }
  split; [reflexivity|]. split.
  - intros Q (j & d & xm & xs & nf & an & ts & t & an2 & v & _ & _ & (? & ? & _ & _ & _ & Ht & _) & Hc & _).
    apply trace_last in Ht. destruct Ht as (s2 & E2). apply Hno in E2. cbn in Hc. congruence.
  - intros Q b (_ & _ & j & d & xm & an & t & _ & (? & ? & _ & _ & _ & Ht & _) & Hc & _).
    apply (trace_last _ _ _ []) in Ht. destruct Ht as (s2 & E2). apply Hno in E2. cbn in Hc. congruence.
Qed.
Print Assumptions C27_recorded_not_converged_refuted.

(** ** C28 number of increments and xlimit *)
(** [k = 0] addresses the last component (the LPF) by Python's negative index. *)
Theorem C28_increments : forall F (NF : Num F) solve argsortF g dg (cfg : pfcfg F) Ured an d j jpre fuel s,
  pathfollow solve argsortF g dg Ured an d j jpre cfg fuel = Ok s ->
  exists recs, ps_res s = (Ured ++ [f0], an) :: recs /\
    (Z.of_nat (length recs) <= Z.max 0 (cf_incs cfg))%Z /\
    (forall k m, cf_xlimit cfg = Some (k, Some m) ->
       (forall x a, In (x, a) (removelast recs) ->
          exists xk, py_get x (k - 1) = Ok xk /\ fltb m (fabs xk) = false)) /\
    ((Z.of_nat (length recs) < cf_incs cfg)%Z ->
       (exists e, In e (ps_out s) /\ error_line e) \/
       (exists rs x a k m xk, recs = rs ++ [(x, a)] /\ cf_xlimit cfg = Some (k, Some m) /\
          py_get x (k - 1) = Ok xk /\ fltb m (fabs xk) = true)).
Proof.
  intros F NF solve argsortF g dg cfg Ured an d j jpre fuel s H.
  eapply (pathfollow_ok solve argsortF g dg cfg _ (fun _ _ => True) (fun _ _ => True) jpre) in H;
    [|apply keeps_True|unfold quiet; auto 10|reflexivity|exact Logic.I|auto].
  destruct H as (recs & Hr & Hl & Hla & Hb & H). exists recs. split; [exact Hr|]. split; [lia|]. split.
  - intros k m Hk x a Hin. apply Hb in Hin. unfold beyond_limit in Hin. rewrite Hk in Hin.
    mstep Hin. injection Hin as E. eauto.
  - intros Hlt. destruct H as [(_ & _ & H)|(rs & x' & a & ms & e & _ & _ & _ & Ho & He & _)].
    + right. destruct H as [Hne Hbl]; [lia|].
      destruct (exists_last Hne) as (rs & [x a] & ->). rewrite last_snoc in Hla. injection Hla as Hx _.
      rewrite Hx in Hbl. unfold beyond_limit in Hbl.
      destruct (cf_xlimit cfg) as [[k [m|]]|]; try discriminate.
      * mstep Hbl. injection Hbl as E. exists rs, x, a, k, m. eauto.
      * mstep Hbl. discriminate.
    + left. exists e. rewrite Ho. split; [apply in_or_app; right; left; reflexivity|exact He].
Qed.
Print Assumptions C28_increments.

(** ** C29 step width bounds of the adaptive control *)
(** In exact arithmetic the step limits of every Newton run that led to a record
    are a multiple of the initial ones between the stated bounds. *)
Theorem C29_step_limits : forall solve argsortF g dg (cfg : pfcfg R) Ured an d j jpre fuel s,
  control_params cfg ->
  (forall v, py_get (expand_dxmax (length (Ured ++ [f0])) d) 0 = Ok v -> 0 < v) ->
  pathfollow solve argsortF g dg Ured an d j jpre cfg fuel = Ok s ->
  exists recs, ps_res s = (Ured ++ [f0], an) :: recs /\
    records_ok solve g dg cfg (bounds_I cfg (expand_dxmax (length (Ured ++ [f0])) d))
               jpre (Ured ++ [f0]) recs (ps_out s).
Proof.
  intros solve argsortF g dg cfg Ured an d j jpre fuel s Hp Hd.
  apply (pathfollow_records R NumR solve argsortF g dg cfg (bounds_I cfg _)).
  - apply bounds_keep; assumption.
  - exists 1. split; [|apply multiple_one]. destruct Hp as (H1 & H2 & H3 & H4). split.
    + apply (Rmult_le_reg_r (cf_reduce cfg)); [lra|]. unfold Rdiv. rewrite Rmult_assoc, Rinv_l; lra.
    + nra.
Qed.
Print Assumptions C29_step_limits.

(** Without step control they never change. *)
Theorem C29_constant : forall F (NF : Num F) solve argsortF g dg (cfg : pfcfg F) Ured an d j jpre fuel s,
  cf_stepcontrol cfg = false ->
  pathfollow solve argsortF g dg Ured an d j jpre cfg fuel = Ok s ->
  exists recs, ps_res s = (Ured ++ [f0], an) :: recs /\
    records_ok solve g dg cfg (fun _ dxmax => dxmax = expand_dxmax (length (Ured ++ [f0])) d)
               jpre (Ured ++ [f0]) recs (ps_out s).
Proof.
  intros F NF solve argsortF g dg cfg Ured an d j jpre fuel s Hs.
  apply (pathfollow_records F NF solve argsortF g dg cfg (fun _ dxmax => dxmax = _)).
  - split; [|intros _ _ _ d' H; exact H].
    intros x0 pre s0 xmax ts t j' valid dxmax' z' b' changed Hi Hpass.
    destruct Hpass as (xs & Dx & q & i1 & v1 & _ & _ & _ & _ & _ & _ & _ & _ & _ & Hc).
    rewrite Hs in Hc. destruct Hc as (-> & _). split; exact Hi.
  - reflexivity.
Qed.
Print Assumptions C29_constant.

(** The interval [minfac, maxfac] of the documentation is left upwards ... *)
Theorem C29_above_maxfac_refuted : exists cfg s x1 a1 x2 a2 c,
  control_params cfg /\
  pathfollow toy_solve toy_sort toy_g toy_k [0] toy_an (DxVec [1; 1]) (Some 2%Z) false cfg 5 = Ok s /\
  ps_res s = [([0; 0], toy_an); (x1, a1); (x2, a2)] /\
  multiple [1; 1] c (a_dVmax a2) /\ cf_maxfac cfg < c.
Proof.
  exists (toy_cfg 2 4 true (11/10) (1/2) 2).
  eexists _, _, _, _, _, (5/4). split.
  { unfold control_params. cbn. lra. }
  split.
  { rewrite toy_start. change (Z.to_nat 2) with 2%nat. cbn [increments].
    rewrite toy_incr by reflexivity. cbn [ps_x ps_an ps_j ps_dxmax ps_b ps_out ps_res app].
    rewrite toy_pass by (try reflexivity; lra).
    unfold toy_control at 1, dxmax_control at 1. rewrite !py1. cbn [bind negb]. numR.
    cbn [toy_cfg cf_maxfac cf_increase]. rewrite (proj2 (Rltb_true 1 (1 * (11/10)))) by lra.
    cbn [Z.eqb Pos.eqb Z.ltb Z.leb Z.compare Pos.compare Pos.compare_cont bind map].
    rewrite (proj2 (Rleb_true 1 2)) by lra. cbn [bind rc_an rc_j rc_dxmax rc_b rc_out].
    cbn [beyond_limit toy_cfg cf_xlimit bind ps_x].
    change (2 - 1)%Z with 1%Z.
    replace (1 * (1 + 1 / 2 * (1 / 2))) with (5/4) by lra. replace (0 + 1) with 1 by ring.
    fold (toy_cfg 2 4 true (11/10) (1/2) 2).
    rewrite toy_incr by reflexivity. cbn [ps_x ps_an ps_j ps_dxmax ps_b ps_out ps_res app].
    rewrite toy_pass by (try reflexivity; lra).
    unfold toy_control at 1, dxmax_control at 1. rewrite !py1. cbn [bind negb]. numR.
    cbn [toy_cfg cf_maxfac cf_increase]. rewrite (proj2 (Rltb_false (5/4) (1 * (11/10)))) by lra.
    cbn [Z.eqb Pos.eqb bind map].
    rewrite (proj2 (Rleb_true 1 2)) by lra. cbn [bind rc_an rc_j rc_dxmax rc_b rc_out].
    cbn [beyond_limit toy_cfg cf_xlimit bind ps_x]. reflexivity. }
  split; [reflexivity|]. split.
  - cbn. unfold multiple. cbn [map]. f_equal; [lra|]. f_equal; lra.
  - cbn. lra.
Qed.
Print Assumptions C29_above_maxfac_refuted.

(** ... and downwards. *)
Theorem C29_below_minfac_refuted : exists cfg s x1 a1 c,
  control_params cfg /\
  pathfollow toy_solve toy_sort toy_bad toy_k [0] toy_an (DxVec [1; 1]) (Some 2%Z) false cfg 5 = Ok s /\
  ps_res s = [([0; 0], toy_an); (x1, a1)] /\
  multiple [1; 1] c (a_dVmax a1) /\ c < cf_minfac cfg.
Proof.
  exists (toy_cfg 1 4 true (11/10) (1/2) 2).
  destruct (toy_pass_bad 1 4 true (11/10) (1/2) 2 [1; 1] 0 0 1 toy_an 0 4 [MIncr] 4 eq_refl ltac:(lra))
    as (an1 & x1 & y1 & Hf1 & _ & E1).
  unfold toy_control at 1, dxmax_control at 1 in E1. rewrite !py1 in E1. cbn [bind negb] in E1. numR.
  cbn [toy_cfg cf_minfac cf_reduce cf_cycl] in E1. rewrite (proj2 (Rltb_true (1 * (1/2)) 1)) in E1 by lra.
  rewrite (proj2 (Reqb_false 4 0)) in E1 by lra.
  cbn [Z.eqb Pos.eqb Z.add orb bind map] in E1. fold (toy_cfg 1 4 true (11/10) (1/2) 2) in E1.
  replace (1 / 4) with (1/4) in E1 by lra.
  destruct (toy_pass_bad 1 4 true (11/10) (1/2) 2 [1; 1] 0 0 (1/4) an1 1 0 ([MIncr] ++ [MRecycle]) 3 Hf1 ltac:(lra))
    as (an2 & x2 & y2 & Hf2 & Hd2 & E2).
  unfold toy_control at 1, dxmax_control at 1 in E2. rewrite !py1 in E2. cbn [bind negb] in E2. numR.
  cbn [toy_cfg cf_minfac cf_reduce cf_cycl] in E2. rewrite (proj2 (Rltb_false (1 * (1/2)) (1/4))) in E2 by lra.
  cbn [Z.eqb Pos.eqb Z.add Pos.add Pos.succ bind] in E2. fold (toy_cfg 1 4 true (11/10) (1/2) 2) in E2.
  rewrite E2 in E1.
  eexists _, _, _, (1/4). split.
  { unfold control_params. cbn. lra. }
  split.
  { rewrite toy_start. change (Z.to_nat 1) with 1%nat. cbn [increments].
    rewrite toy_incr by reflexivity. cbn [ps_x ps_an ps_j ps_dxmax ps_b ps_out ps_res app].
    rewrite E1. cbn [bind]. reflexivity. }
  split; [reflexivity|]. split.
  - cbn. rewrite Hd2. unfold multiple. cbn [map]. f_equal; [lra|]. f_equal; lra.
  - cbn. lra.
Qed.
Print Assumptions C29_below_minfac_refuted.

(** ** C30 an increment terminates *)
(** [fuel] bounds the number of Newton runs in each increment. *)
Theorem C30_plain : forall F (NF : Num F) solve argsortF g dg (cfg : pfcfg F) Ured an d j jpre fuel,
  no_timeout g dg -> cf_stepcontrol cfg = false -> (1 <= cf_cycl cfg)%Z ->
  (Z.to_nat (cf_cycl cfg) <= fuel)%nat ->
  pathfollow solve argsortF g dg Ured an d j jpre cfg fuel <> Timeout.
Proof. intros F NF. exact plain_terminates. Qed.
Print Assumptions C30_plain.

Theorem C30_stepcontrol : forall solve argsortF g dg (cfg : pfcfg R) Ured an d j jpre fuel N,
  no_timeout g dg -> cf_stepcontrol cfg = true -> (1 <= cf_cycl cfg)%Z ->
  control_params cfg -> 1 < cf_reduce cfg -> 0 < cf_minfac cfg ->
  (forall v, py_get (expand_dxmax (length (Ured ++ [f0])) d) 0 = Ok v -> 0 < v) ->
  cf_maxfac cfg * (1 + cf_increase cfg) <= cf_minfac cfg * cf_reduce cfg ^ N ->
  (Z.to_nat (cf_cycl cfg) * (N + 1) <= fuel)%nat ->
  pathfollow solve argsortF g dg Ured an d j jpre cfg fuel <> Timeout.
Proof. exact control_terminates. Qed.
Print Assumptions C30_stepcontrol.

(** Such an N exists for all admissible parameters. *)
Theorem C30_bound_exists : forall cfg : pfcfg R, 1 < cf_reduce cfg -> 0 < cf_minfac cfg ->
  exists N, cf_maxfac cfg * (1 + cf_increase cfg) <= cf_minfac cfg * cf_reduce cfg ^ N.
Proof. intros cfg Hr Hm. exact (reductions_exist _ _ _ Hm Hr). Qed.
Print Assumptions C30_bound_exists.

Example C30_meets : no_timeout toy_g toy_k /\ control_params (toy_cfg 2 4 true 4 (1/100) 2) /\
  1 < cf_reduce (toy_cfg 2 4 true 4 (1/100) 2) /\
  4 * (1 + 1/2) <= 1/100 * 4 ^ 5.
Proof.
  split; [exact toy_no_timeout|]. split; [unfold control_params; cbn; lra|]. split; cbn; lra.
Qed.

(** cycl = 0: if the Newton run converges but its increment is too long, the loop
    never ends. *)
Theorem C30_cycl_refuted : exists cfg, cf_cycl cfg = 0%Z /\ cf_stepcontrol cfg = false /\
  no_timeout toy_g toy_k /\ forall fuel,
  pathfollow toy_solve toy_sort toy_g toy_k [0] toy_an (DxVec [1; 1]) (Some 2%Z) false cfg fuel = Timeout.
Proof.
  exists (toy_cfg 1 0 false 1 1 (1/2)). split; [reflexivity|]. split; [reflexivity|].
  split; [exact toy_no_timeout|]. intros fuel. rewrite toy_start. change (Z.to_nat 1) with 1%nat.
  cbn [increments]. rewrite toy_incr by reflexivity. cbn [ps_x ps_an ps_j ps_dxmax ps_b ps_out app].
  assert (H : forall fuel an z out, a_f0red an = [1] -> (0 <= z)%Z ->
    recycle toy_solve toy_sort toy_g toy_k (toy_cfg 1 0 false 1 1 (1/2)) [0; 0] [1; 1] None fuel
      (Rc an z 2 [1; 1] 4 0 out) = Timeout).
  { clear. induction fuel as [|fuel IH]; intros an z out Hf Hz; [reflexivity|].
    rewrite toy_pass by (try exact Hf; lra). cbn [toy_control bind].
    rewrite (proj2 (Rleb_false 1 (1/2))) by lra.
    destruct (Z.eqb_spec (z + 1) 0); [lia|]. apply IH; [exact Hf|lia]. }
  rewrite H; [reflexivity|reflexivity|lia].
Qed.
Print Assumptions C30_cycl_refuted.

(** stepcontrol with minfac = 0: a Newton run that never converges is repeated
    with ever smaller step limits. *)
Theorem C30_minfac_refuted : exists cfg, cf_cycl cfg = 2%Z /\ cf_stepcontrol cfg = true /\
  control_params cfg /\ cf_minfac cfg = 0 /\ no_timeout toy_bad toy_k /\ forall fuel,
  pathfollow toy_solve toy_sort toy_bad toy_k [0] toy_an (DxVec [1; 1]) (Some 2%Z) false cfg fuel = Timeout.
Proof.
  exists (toy_cfg 1 2 true 1 0 1). split; [reflexivity|]. split; [reflexivity|].
  split; [unfold control_params; cbn; lra|]. split; [reflexivity|].
  split; [split; discriminate|].
  intros fuel. rewrite toy_start. change (Z.to_nat 1) with 1%nat.
  cbn [increments]. rewrite toy_incr by reflexivity. cbn [ps_x ps_an ps_j ps_dxmax ps_b ps_out app].
  assert (H : forall fuel an c z b out, a_f0red an = [1] -> 0 < c -> z = 0%Z \/ z = 1%Z ->
    recycle toy_solve toy_sort toy_bad toy_k (toy_cfg 1 2 true 1 0 1) [0; 0] [1; 1] None fuel
      (Rc an z 2 [c; c] b 0 out) = Timeout).
  { clear. induction fuel as [|fuel IH]; intros an c z b out Hf Hc Hz; [reflexivity|].
    destruct (toy_pass_bad 1 2 true 1 0 1 [1; 1] 0 0 c an z b out fuel Hf Hc) as (an' & x & y & Hf' & _ & E).
    rewrite E. unfold toy_control, dxmax_control. rewrite !py1. cbn [bind negb]. numR.
    cbn [toy_cfg cf_minfac cf_reduce cf_cycl]. rewrite (proj2 (Rltb_true (1 * 0) c)) by lra.
    rewrite (proj2 (Reqb_false 4 0)) by lra.
    assert (0 < c / 4) by lra.
    destruct Hz as [-> | ->]; cbn [Z.eqb Pos.eqb Z.add orb bind map Pos.add Pos.succ];
      fold (toy_cfg 1 2 true 1 0 1); apply IH; auto. }
  rewrite H; [reflexivity|reflexivity|lra|auto].
Qed.
Print Assumptions C30_minfac_refuted.

(** ** C31 locked control component *)
Theorem C31_locked : forall F (NF : Num F) solve argsortF g dg (cfg : pfcfg F) Ured an d j jpre fuel s,
  cf_jfixed cfg = true ->
  pathfollow solve argsortF g dg Ured an d (Some j) jpre cfg fuel = Ok s ->
  exists recs, ps_res s = (Ured ++ [f0], an) :: recs /\
    records_ok solve g dg cfg (fun j' _ => j' = j) jpre (Ured ++ [f0]) recs (ps_out s).
Proof.
  intros F NF solve argsortF g dg cfg Ured an d j jpre fuel s Hj.
  apply (pathfollow_records F NF solve argsortF g dg cfg (fun j' _ => j' = j)).
  - split; [|rewrite Hj; discriminate].
    intros x0 pre s0 xmax ts t j' valid dxmax' z' b' changed Hi Hpass.
    destruct Hpass as (xs & Dx & q & i1 & v1 & _ & _ & _ & _ & _ & _ & Hjj & _).
    rewrite Hj in Hjj. split; congruence.
  - unfold first_j. rewrite Hj. reflexivity.
Qed.
Print Assumptions C31_locked.

(** The control component of an accepted increment moves by its step limit in
    the direction of j, up to ftol; the residual norm is below ftol. *)
Theorem C31_moves : forall solve g dg (cfg : pfcfg R) Q x0 x an',
  accepted solve g dg cfg Q x0 x an' ->
  exists j dxmax x0j dj xj, Q j dxmax /\
    py_get x0 (Z.abs j - 1) = Ok x0j /\ py_get dxmax (Z.abs j - 1) = Ok dj /\
    py_get x (Z.abs j - 1) = Ok xj /\
    Rabs (xj - (x0j + dj * IZR (Z.sgn j))) < cf_ftol cfg.
Proof.
  intros solve g dg cfg Q x0 x an' (j & d & xm & xs & nf & an & ts & t & an2 & v & Hq & _ & Hc & Hcv & Hx & _).
  pose proof Hc as (x0j & dj & H1 & H2 & H3 & _).
  destruct (corrector_reach _ _ _ _ _ _ _ _ _ _ _ _ _ Hc Hcv) as (gr & an3 & an4 & xj & _ & _ & H4 & _ & H5).
  exists j, d, x0j, dj, xj. rewrite Hx in H4. numR. subst xm. repeat split; assumption.
Qed.
Print Assumptions C31_moves.

(** Without locking, the argument j is ignored. *)
Theorem C31_free : forall F (NF : Num F) solve argsortF g dg (cfg : pfcfg F) Ured an d j1 j2 jpre fuel,
  cf_jfixed cfg = false ->
  pathfollow solve argsortF g dg Ured an d j1 jpre cfg fuel =
  pathfollow solve argsortF g dg Ured an d j2 jpre cfg fuel.
Proof. intros F NF solve argsortF g dg cfg Ured an d j1 j2 jpre fuel H. unfold pathfollow. rewrite H. reflexivity. Qed.
Print Assumptions C31_free.

(** The hypotheses of the theorems about records are met: two accepted
    increments of the path u = l. *)
Example C25_meets : exists s x1 a1 x2 a2,
  pathfollow toy_solve toy_sort toy_g toy_k [0] toy_an (DxVec [1; 1]) (Some 2%Z) false
     (toy_cfg 2 4 false 4 (1/100) 2) 5 = Ok s /\
  ps_res s = [([0; 0], toy_an); (x1, a1); (x2, a2)] /\ x1 = [1; 1] /\ x2 = [2; 2].
Proof.
  eexists _, _, _, _, _. split.
  { rewrite toy_start. change (Z.to_nat 2) with 2%nat. cbn [increments].
    rewrite toy_incr by reflexivity. cbn [ps_x ps_an ps_j ps_dxmax ps_b ps_out ps_res app].
    rewrite toy_pass by (try reflexivity; lra). cbn [toy_control bind].
    rewrite (proj2 (Rleb_true 1 2)) by lra. cbn [bind rc_an rc_j rc_dxmax rc_b rc_out].
    cbn [beyond_limit toy_cfg cf_xlimit bind ps_x]. fold (toy_cfg 2 4 false 4 (1/100) 2).
    rewrite toy_incr by reflexivity. cbn [ps_x ps_an ps_j ps_dxmax ps_b ps_out ps_res app].
    rewrite toy_pass by (try reflexivity; lra). cbn [toy_control bind].
    rewrite (proj2 (Rleb_true 1 2)) by lra. cbn [bind rc_an rc_j rc_dxmax rc_b rc_out].
    cbn [beyond_limit toy_cfg cf_xlimit bind ps_x]. reflexivity. }
  split; [reflexivity|]. split; f_equal; try ring; f_equal; ring.
Qed.
