(** * C49 strain paths of the plastic material

    Vocabulary: SpecMaterial.v. *)
From Coq Require Import List ZArith Reals Lra Lia Sorting.Sorted.
Import ListNotations.
From Verif Require Import Num NumR Material SpecMaterial MaterialFacts LoadFacts.
Local Open Scope R_scope.

(** After any history, the stress as a function of the next strain rises with a slope
    between the plastic tangent E K/(E+K) and E. *)
Theorem C49_slope : forall E K Sy h outs y p e1 e2 de1 de2 s1 t1 st1 s2 t2 st2,
  0 < E -> 0 <= K -> 0 < Sy -> mat_run [E; K; Sy] h outs ->
  y = m_yield (last outs mat_zero) -> p = m_epl (last outs mat_zero) ->
  umat_elplast_iso e1 de1 [E; K; Sy] (Some [y; p]) = Ok (s1, t1, st1) ->
  umat_elplast_iso e2 de2 [E; K; Sy] (Some [y; p]) = Ok (s2, t2, st2) -> e1 <= e2 ->
  E * K / (E + K) * (e2 - e1) <= s2 - s1 <= E * (e2 - e1).
Proof.
  intros E K Sy h outs y p e1 e2 de1 de2 s1 t1 st1 s2 t2 st2 HE HK HS Hr -> -> H1 H2 He.
  exact (slope E K Sy HE HK HS _ _ _ _ _ _ _ _ _ _ _ _ (proj1 (run_state E K Sy HE HK HS h outs Hr)) He H1 H2).
Qed.
Print Assumptions C49_slope.

(** Strains that only increase, or only decrease, can be left out: the end of the path
    depends on where it starts and ends only, whatever happened before. *)
Theorem C49_increments : forall E K Sy h e0 mid e1 outs outs',
  0 < E -> 0 <= K -> 0 < Sy ->
  StronglySorted Rle (e0 :: mid ++ [e1]) \/ StronglySorted Rge (e0 :: mid ++ [e1]) ->
  mat_run [E; K; Sy] (h ++ e0 :: mid ++ [e1]) outs -> mat_run [E; K; Sy] (h ++ [e0; e1]) outs' ->
  last outs mat_zero = last outs' mat_zero.
Proof. intros E K Sy h e0 mid e1 outs outs' HE HK HS. apply (substeps E K Sy HE HK HS). Qed.
Print Assumptions C49_increments.

(** Unloading and loading again: if the plastic strain has not moved when the strain
    comes back, stress and yield stress are what they were. *)
Theorem C49_return : forall E K Sy h e mid outs outs',
  0 < E -> 0 <= K -> 0 < Sy ->
  mat_run [E; K; Sy] (h ++ [e]) outs -> mat_run [E; K; Sy] (h ++ e :: mid ++ [e]) outs' ->
  (forall o, In o (skipn (length h) outs') -> m_epl o = m_epl (last outs mat_zero)) ->
  last outs' mat_zero = last outs mat_zero.
Proof.
  intros E K Sy h e mid outs outs' HE HK HS H H' Hp.
  destruct (split_and_hardening E K Sy h e outs HE HK HS H) as (A1 & A2).
  assert (H2 : mat_run [E; K; Sy] ((h ++ e :: mid) ++ [e]) outs') by (rewrite <- app_assoc; exact H').
  destruct (split_and_hardening E K Sy _ e outs' HE HK HS H2) as (B1 & B2). cbn zeta in *.
  rewrite (run_states E K Sy HE HK HS _ _ H) in *. rewrite (run_states E K Sy HE HK HS _ _ H') in *.
  change (e :: mid ++ [e]) with ([e] ++ (mid ++ [e])) in *. rewrite (app_assoc h) in *. set (g := mid ++ [e]) in *.
  assert (Hs : forall a o b, states E K Sy o (a ++ b) = states E K Sy o a ++ states E K Sy (last (states E K Sy o a) o) b).
  { induction a as [|x a IH]; intros o b; [reflexivity|]. cbn [app states]. rewrite IH, last_cons_last. reflexivity. }
  assert (Hl : forall a o, length (states E K Sy o a) = length a) by (induction a; intros; cbn; auto).
  rewrite (Hs (h ++ [e])) in *. set (S1 := states E K Sy mat_zero (h ++ [e])) in *.
  assert (Hacc : forall l p0 q, (forall o, In o l -> m_epl o = p0) -> q = p0 -> accumulated q l = 0).
  { induction l as [|o l IH]; intros p0 q Hi ->; [reflexivity|]. cbn [accumulated]. rewrite (Hi o (or_introl eq_refl)), Rminus_eq_0, Rabs_R0, (IH p0); [ring| |auto].
    intros; apply Hi; right; auto. }
  assert (Happ : forall a b q, accumulated q (a ++ b) = accumulated q a + accumulated (m_epl (last a (0, 0, q))) b).
  { induction a as [|o a IH]; intros b q; [unfold m_epl; cbn; ring|]. cbn [app accumulated]. rewrite IH, last_cons_last.
    replace (m_epl (last a (0, 0, m_epl o))) with (m_epl (last a o)); [ring|]. destruct a as [|x a]; [reflexivity|]. rewrite !last_cons_last. reflexivity. }
  set (S2 := states E K Sy _ g) in *. assert (Hn : S2 <> []) by (unfold S2, g; destruct mid; discriminate).
  assert (Hin : forall o, In o S2 -> m_epl o = m_epl (last S1 mat_zero)).
  { intros o Ho. apply Hp. rewrite skipn_app. apply in_app_iff. right.
    replace (length h - length S1)%nat with 0%nat; [exact Ho|]. unfold S1. rewrite Hl, app_length. cbn. lia. }
  assert (Ho : In (last (S1 ++ S2) mat_zero) S2).
  { destruct (exists_last Hn) as (l & x & ->). rewrite app_assoc, last_snoc. apply in_app_iff. right. left. reflexivity. }
  assert (Ey : m_yield (last (S1 ++ S2) mat_zero) = m_yield (last S1 mat_zero)).
  { rewrite A2, B2, Happ. change (0, 0, 0) with mat_zero. rewrite (Hacc S2 (m_epl (last S1 mat_zero))); auto. ring. }
  assert (Ep : m_epl (last (S1 ++ S2) mat_zero) = m_epl (last S1 mat_zero)) by (apply Hin; exact Ho).
  assert (Es : m_stress (last (S1 ++ S2) mat_zero) = m_stress (last S1 mat_zero)) by (rewrite A1, B1, Ep; reflexivity).
  destruct (last (S1 ++ S2) mat_zero) as [[a b] c]. destruct (last S1 mat_zero) as [[a' b'] c']. unfold m_stress, m_yield, m_epl in *. cbn [fst snd] in *. congruence.
Qed.
Print Assumptions C49_return.

(** The plastic work is at least the initial yield stress times the accumulated plastic
    strain. *)
Theorem C49_plastic_work : forall E K Sy h outs,
  0 < E -> 0 <= K -> 0 < Sy -> mat_run [E; K; Sy] h outs ->
  Sy * accumulated 0 outs <= plastic_work 0 outs.
Proof.
  intros E K Sy h outs HE HK HS H. rewrite (run_states E K Sy HE HK HS _ _ H).
  apply (work_states E K Sy HE HK HS h mat_zero). left. reflexivity.
Qed.
Print Assumptions C49_plastic_work.

(** No strain path yields energy: the work done on the material is at least the
    elastic energy at the end. *)
Theorem C49_no_gain : forall E K Sy h outs,
  0 < E -> 0 <= K -> 0 < Sy -> mat_run [E; K; Sy] h outs ->
  m_stress (last outs mat_zero) ^ 2 / (2 * E) <= strain_work 0 0 h outs.
Proof.
  intros E K Sy h outs HE HK HS H. rewrite (run_states E K Sy HE HK HS _ _ H).
  pose proof (strain_states E K Sy HE HK HS h mat_zero 0 (or_introl eq_refl)) as L.
  change (m_stress mat_zero) with 0 in L. change (m_epl mat_zero) with 0 in L. change (m_yield mat_zero) with 0 in L.
  rewrite Rabs_R0 in L. specialize (L ltac:(ring) ltac:(lra)). unfold Rdiv in *. rewrite (pow_ne_zero 2) in L by discriminate. lra.
Qed.
Print Assumptions C49_no_gain.

(** A path beyond yield in steps, and back: E=2, K=1, Sy=1. *)
Example C49_meets : exists outs outs', mat_run [2; 1; 1] ([] ++ 0 :: [1; 3/2] ++ [2]) outs /\ mat_run [2; 1; 1] ([] ++ [0; 2]) outs' /\
  StronglySorted Rle (0 :: [1; 3/2] ++ [2]) /\ m_epl (last outs' mat_zero) = 1.
Proof.
  destruct (mat_run_total 2 1 1 ([] ++ 0 :: [1; 3/2] ++ [2])) as (outs & H). destruct (mat_run_total 2 1 1 ([] ++ [0; 2])) as (outs' & H').
  exists outs, outs'. split; [exact H|]. split; [exact H'|]. split.
  - cbn [app]. repeat constructor; lra.
  - rewrite (run_last 2 1 1 ltac:(lra) ltac:(lra) ltac:(lra) _ _ H'). cbn [app fold_left]. unfold next, flow, yield_before, m_epl, m_yield, mat_zero. cbn [fst snd]. cbn zeta.
    destruct (Req_EM_T 0 0) as [_|]; [|lra].
    assert (Rmax 0 (2 * (0 - 0) - 1) = 0) as -> by (apply Rmax_left; lra). assert (Rmax 0 (- (2 * (0 - 0)) - 1) = 0) as -> by (apply Rmax_left; lra).
    replace ((0 - 0) / (2 + 1)) with 0 by lra. rewrite Rabs_R0. destruct (Req_EM_T (1 + 1 * 0) 0); [lra|].
    rewrite Rmax_right by lra. rewrite Rmax_left by lra. lra.
Qed.

(** Beyond yield to strain 2, back to 3/2 and again to 2. *)
Example C49_return_meets : exists outs outs', mat_run [2; 1; 1] ([] ++ [2]) outs /\ mat_run [2; 1; 1] ([] ++ 2 :: [3/2] ++ [2]) outs' /\
  (forall o, In o (skipn 0 outs') -> m_epl o = m_epl (last outs mat_zero)) /\ last outs mat_zero = (2, 2, 1).
Proof.
  destruct (mat_run_total 2 1 1 ([] ++ [2])) as (outs & H). destruct (mat_run_total 2 1 1 ([] ++ 2 :: [3/2] ++ [2])) as (outs' & H').
  exists outs, outs'. split; [exact H|]. split; [exact H'|].
  apply (run_states 2 1 1 ltac:(lra) ltac:(lra) ltac:(lra)) in H, H'. subst. cbn [app states skipn].
  assert (N : next 2 1 1 mat_zero 2 = (2, 2, 1)).
  { unfold next, flow, yield_before, m_epl, m_yield, mat_zero. cbn [fst snd]. cbn zeta. destruct (Req_EM_T 0 0) as [_|]; [|lra].
    rewrite Rmax_right by lra. rewrite Rmax_left by lra. rewrite Rabs_right by lra. repeat f_equal; lra. }
  rewrite N. rewrite (next_elastic 2 1 1 ltac:(lra) ltac:(lra) ltac:(lra) (2, 2, 1) (3/2)).
  2, 3: unfold m_yield, m_epl; cbn [fst snd]; try rewrite Rabs_right; lra.
  unfold m_yield at 1, m_epl at 1 2. cbn [fst snd].
  rewrite (next_elastic 2 1 1 ltac:(lra) ltac:(lra) ltac:(lra) _ 2).
  2, 3: unfold m_yield, m_epl; cbn [fst snd]; try rewrite Rabs_right; lra.
  split; [|reflexivity]. intros o [<-|[<-|[<-|[]]]]; reflexivity.
Qed.
