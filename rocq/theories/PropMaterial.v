(** * Properties of the material laws (C10 - C14), exact arithmetic *)
From Coq Require Import List Reals Lra.
Import ListNotations.
From Verif Require Import Num NumR Material SpecMaterial MaterialFacts.
Local Open Scope R_scope.

(** C10: stress = E * strain, tangent E, state untouched; for every strain. *)
Theorem C10_elastic_law : forall E rest e de st,
  umat_el e de (E :: rest) st = Ok (E * e, E, st).
Proof. exact elastic_law. Qed.
Print Assumptions C10_elastic_law.

(** C10, C13: the tangent of the elastic law is the derivative of its stress. *)
Theorem C10_elastic_tangent : forall E rest de st (sig tan : R -> R),
  (forall e, exists st', umat_el e de (E :: rest) st = Ok (sig e, tan e, st')) ->
  forall e, derivable_pt_lim sig e (tan e).
Proof. exact elastic_derivative. Qed.
Print Assumptions C10_elastic_tangent.

Example C10_meets : forall e, exists st',
  umat_el e 0 [2] None = Ok ((fun e => 2 * e) e, (fun _ => 2) e, st').
Proof. intros e. exists None. reflexivity. Qed.

(** C11: after any strain history |stress| <= stored yield stress, which is at
    least Sy and never smaller than before. *)
Theorem C11_yield_bound : forall E K Sy h e outs,
  0 < E -> 0 <= K -> 0 < Sy ->
  mat_run [E; K; Sy] (h ++ [e]) outs ->
  exists outs' o, outs = outs' ++ [o] /\ mat_run [E; K; Sy] h outs' /\
    Rabs (m_stress o) <= m_yield o /\ Sy <= m_yield o /\
    m_yield (last outs' mat_zero) <= m_yield o.
Proof. exact yield_bound. Qed.
Print Assumptions C11_yield_bound.

(** Every strain history has a run. *)
Theorem C11_runs_exist : forall E K Sy h, exists outs, mat_run [E; K; Sy] h outs.
Proof. exact mat_run_total. Qed.
Print Assumptions C11_runs_exist.

(** C12: stress = E * (strain - plastic strain) and yield stress = Sy + K times
    the accumulated absolute plastic strain increments, after any history. *)
Theorem C12_split_and_hardening : forall E K Sy h e outs,
  0 < E -> 0 <= K -> 0 < Sy ->
  mat_run [E; K; Sy] (h ++ [e]) outs ->
  let o := last outs mat_zero in
  m_stress o = E * (e - m_epl o) /\ m_yield o = Sy + K * accumulated 0 outs.
Proof. exact split_and_hardening. Qed.
Print Assumptions C12_split_and_hardening.

(** C12: after any history, a further evaluation is elastic if the trial stress
    is within the yield stress; otherwise the new stress is on the yield surface,
    the plastic strain moves in the direction of the stress and the yield stress
    grows by K times that movement. *)
Theorem C12_kuhn_tucker : forall E K Sy h outs e de s t y p,
  0 < E -> 0 <= K -> 0 < Sy ->
  mat_run [E; K; Sy] h outs ->
  let y0 := m_yield (last outs mat_zero) in
  let p0 := m_epl (last outs mat_zero) in
  umat_elplast_iso e de [E; K; Sy] (Some [y0; p0]) = Ok (s, t, Some [y; p]) ->
  let Y := yield_before Sy y0 in
  (Rabs (E * (e - p0)) <= Y -> s = E * (e - p0) /\ p = p0 /\ y = Y) /\
  (Y < Rabs (E * (e - p0)) ->
     Rabs s = y /\ 0 < (p - p0) * s /\ y = Y + K * Rabs (p - p0)).
Proof. exact kuhn_tucker. Qed.
Print Assumptions C12_kuhn_tucker.

(** A plastic first evaluation: E=2, K=1, Sy=1, strain 2. *)
Example C12_meets : exists s y p, mat_run [2; 1; 1] ([] ++ [2]) [(s, y, p)] /\ y = 2 /\ p = 1.
Proof.
  exists 2, 2, 1. split; [|lra].
  eapply (mat_run_snoc _ [] [] 2 0 2 (2 * 1 / (2 + 1)) 2 1); [constructor|].
  rewrite umat_pl_eq. cbn [last m_yield m_epl mat_zero fst snd]. cbn zeta.
  unfold yield_before. destruct (Req_EM_T 0 0) as [_|]; [|lra].
  replace (2 * (2 - 0)) with 4 by lra. rewrite (Rabs_right 4) by lra.
  destruct (Rle_dec (4 - 1) 0); [lra|]. rewrite fsignR. destruct (Rlt_dec 0 4); [|lra].
  repeat f_equal; lra.
Qed.

(** C13: the returned tangent is the derivative of the returned stress at every
    strain that is not exactly on the yield limit, for any committed state. *)
Theorem C13_consistent_tangent : forall E K Sy y p de (sig tan : R -> R),
  0 < E -> 0 <= K -> 0 < yield_before Sy y ->
  (forall e, exists st, umat_elplast_iso e de [E; K; Sy] (Some [y; p]) = Ok (sig e, tan e, st)) ->
  forall e, Rabs (E * (e - p)) <> yield_before Sy y ->
  derivable_pt_lim sig e (tan e).
Proof. exact umat_pl_derivative. Qed.
Print Assumptions C13_consistent_tangent.

(** C14: below the yield limit the law is elastic, shifted by the plastic strain. *)
Theorem C14_elastic_below_yield : forall E K Sy e de y p,
  Rabs (E * (e - p)) <= yield_before Sy y ->
  umat_elplast_iso e de [E; K; Sy] (Some [y; p])
  = Ok (E * (e - p), E, Some [yield_before Sy y; p]).
Proof. exact elastic_below_yield. Qed.
Print Assumptions C14_elastic_below_yield.

(** C14: re-evaluating at the committed strain reproduces stress and state (and
    is elastic). *)
Theorem C14_reevaluation : forall E K Sy h outs e de s t y p de',
  0 < E -> 0 <= K -> 0 < Sy ->
  mat_run [E; K; Sy] h outs ->
  umat_elplast_iso e de [E; K; Sy]
    (Some [m_yield (last outs mat_zero); m_epl (last outs mat_zero)]) = Ok (s, t, Some [y; p]) ->
  umat_elplast_iso e de' [E; K; Sy] (Some [y; p]) = Ok (s, E, Some [y; p]).
Proof. exact reevaluation. Qed.
Print Assumptions C14_reevaluation.

(** C14: the mirrored strain history gives mirrored stresses and plastic strains
    and the same yield stresses. *)
Theorem C14_mirror : forall E K Sy h outs,
  mat_run [E; K; Sy] h outs ->
  mat_run [E; K; Sy] (map Ropp h) (map (fun o => (- m_stress o, m_yield o, - m_epl o)) outs).
Proof. exact mirror_history. Qed.
Print Assumptions C14_mirror.
