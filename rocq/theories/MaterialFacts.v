(** * Lemmas about the material laws over R *)
From Coq Require Import List ZArith Reals Lra Psatz.
From Coquelicot Require Import Coquelicot.
Import ListNotations.
From Verif Require Import Num NumR Material SpecMaterial.
Local Open Scope R_scope.

Lemma last_snoc {A} (l : list A) a d : last (l ++ [a]) d = a.
Proof. induction l as [|x l IH]; auto. cbn. destruct (l ++ [a]) eqn:E; auto. destruct l; discriminate. Qed.

(** Closed form of one plastic evaluation. *)
Lemma umat_pl_eq E K Sy e de y p :
  umat_elplast_iso e de [E; K; Sy] (Some [y; p]) =
  let Y := yield_before Sy y in
  let tr := E * (e - p) in
  let f := Rabs tr - Y in
  if Rle_dec f 0 then Ok (tr, E, Some [Y + K * 0; p])
  else let dg := f / (E + K) in
       Ok ((1 - dg * E / Rabs tr) * tr, E * K / (E + K),
           Some [Y + K * dg; p + dg * fsign tr]).
Proof.
  unfold umat_elplast_iso, yield_before. cbn [item nth_error bind]. numR. unfold Reqb, Rleb.
  destruct (Req_EM_T y 0); destruct (Rle_dec _ 0); reflexivity.
Qed.

Section Iso.
  Variables E K Sy : R.
  Hypothesis HE : 0 < E.
  Hypothesis HK : 0 <= K.
  Hypothesis HS : 0 < Sy.

  Lemma yield_before_pos y : y = 0 \/ Sy <= y -> Sy <= yield_before Sy y.
  Proof. unfold yield_before. destruct (Req_EM_T y 0); intros [|]; lra. Qed.

  (** Full description of one evaluation. *)
  Lemma umat_pl_spec e de y p s t y' p' :
    y = 0 \/ Sy <= y ->
    umat_elplast_iso e de [E; K; Sy] (Some [y; p]) = Ok (s, t, Some [y'; p']) ->
    let Y := yield_before Sy y in
    let tr := E * (e - p) in
    s = E * (e - p') /\ y' = Y + K * Rabs (p' - p) /\ Rabs s <= y' /\
    ((Rabs tr <= Y /\ s = tr /\ p' = p /\ t = E) \/
     (Y < Rabs tr /\ Rabs s = y' /\ t = E * K / (E + K) /\
      exists dg, 0 < dg /\ dg = (Rabs tr - Y) / (E + K) /\ p' = p + dg * fsign s /\
                 fsign s = fsign tr)).
  Proof.
    intros Hy. rewrite umat_pl_eq. cbn zeta.
    set (Y := yield_before Sy y). set (tr := E * (e - p)).
    assert (HY : Sy <= Y) by (apply yield_before_pos; auto).
    destruct (Rle_dec (Rabs tr - Y) 0) as [Hle|Hgt]; intros H; injection H as <- <- <- <-.
    - rewrite Rminus_eq_0, Rabs_R0.
      split; [reflexivity|]. split; [reflexivity|]. split; [lra|]. left. repeat split; lra.
    - assert (Hf : Y < Rabs tr) by lra.
      set (dg := (Rabs tr - Y) / (E + K)).
      assert (Hdg : 0 < dg) by (apply Rdiv_lt_0_compat; lra).
      assert (HdgE : dg * (E + K) = Rabs tr - Y) by (unfold dg; field; lra).
      assert (Hfac : 0 < 1 - dg * E / Rabs tr).
      { assert (dg * E / Rabs tr < 1); [|lra].
        apply Rmult_lt_reg_r with (Rabs tr); [lra|].
        unfold Rdiv. rewrite Rmult_assoc, Rinv_l by lra. nra. }
      assert (Hsg : fsign ((1 - dg * E / Rabs tr) * tr) = fsign tr).
      { rewrite !fsignR. destruct (Rlt_dec 0 tr).
        - destruct (Rlt_dec 0 _) as [|n]; auto. exfalso. apply n. apply Rmult_lt_0_compat; lra.
        - destruct (Rlt_dec tr 0).
          + destruct (Rlt_dec 0 _) as [h|_]; [nra|]. destruct (Rlt_dec _ 0) as [|n0]; auto.
            exfalso. apply n0. nra.
          + assert (tr = 0) by lra. exfalso. rewrite H, Rabs_R0 in Hf. lra. }
      assert (Hab : Rabs tr = fsign tr * tr /\ fsign tr * fsign tr = 1).
      { rewrite fsignR. unfold Rabs in *. destruct (Rcase_abs tr); destruct (Rlt_dec 0 tr); try lra.
        destruct (Rlt_dec tr 0); lra. }
      destruct Hab as [Hab Hss].
      assert (Hs : (1 - dg * E / Rabs tr) * tr = tr - dg * E * fsign tr).
      { rewrite Rmult_minus_distr_r, Rmult_1_l. f_equal.
        unfold Rdiv. rewrite Rmult_assoc. f_equal.
        apply Rmult_eq_reg_l with (Rabs tr); [|lra].
        rewrite <- Rmult_assoc, Rinv_r by lra. rewrite Rmult_1_l.
        rewrite Hab. transitivity (fsign tr * fsign tr * tr); [rewrite Hss|]; ring. }
      assert (Hrs : Rabs ((1 - dg * E / Rabs tr) * tr) = Y + K * dg).
      { rewrite Rabs_mult, (Rabs_right (1 - _)) by lra.
        rewrite Rmult_minus_distr_r. unfold Rdiv. rewrite (Rmult_assoc (dg * E)), Rinv_l by lra. lra. }
      assert (Hdp : Rabs (p + dg * fsign tr - p) = dg).
      { replace (p + dg * fsign tr - p) with (dg * fsign tr) by ring.
        rewrite Rabs_mult, (Rabs_right dg) by lra.
        rewrite fsignR in *. destruct (Rlt_dec 0 tr); [rewrite Rabs_R1; ring|].
        destruct (Rlt_dec tr 0); [|lra]. rewrite Rabs_left by lra. ring. }
      repeat split.
      + rewrite Hs. unfold tr. ring.
      + rewrite Hdp. reflexivity.
      + rewrite Hrs. lra.
      + right. repeat split; auto. exists dg. rewrite Hsg. repeat split; auto.
  Qed.

  Lemma umat_pl_total e de y p : exists s t y' p',
    umat_elplast_iso e de [E; K; Sy] (Some [y; p]) = Ok (s, t, Some [y'; p']).
  Proof. rewrite umat_pl_eq. cbn zeta. destruct (Rle_dec _ 0); repeat eexists. Qed.

  (** Invariant of a run. *)
  Lemma mat_run_inv h outs : mat_run [E; K; Sy] h outs ->
    let o := last outs mat_zero in
    (outs = [] /\ o = mat_zero) \/
    (outs <> [] /\ Rabs (m_stress o) <= m_yield o /\ Sy <= m_yield o /\
     m_stress o = E * (last h 0 - m_epl o) /\ m_yield o = Sy + K * accumulated 0 outs).
  Proof.
    assert (Hacc : forall outs p0 o, accumulated p0 (outs ++ [o]) =
              accumulated p0 outs + Rabs (m_epl o - m_epl (last outs (0, 0, p0)))).
    { induction outs0 as [|x outs0 IH]; intros p0 o; cbn [app accumulated].
      - cbn. lra.
      - rewrite IH. rewrite Rplus_assoc. do 3 f_equal.
        destruct outs0 as [|w outs0]; auto. cbn [last]. do 3 f_equal.
        clear. revert w. induction outs0; intros; auto. cbn [last]. apply IHouts0. }
    intros H. induction H as [|h outs e de s t y p Hr IH Hu]; cbn zeta.
    - left. auto.
    - right. split; [destruct outs; discriminate|].
      rewrite !last_snoc. unfold m_stress, m_yield, m_epl. cbn [fst snd].
      cbn zeta in IH.
      assert (Hy : m_yield (last outs mat_zero) = 0 \/ Sy <= m_yield (last outs mat_zero)).
      { destruct IH as [[_ ->]|IH]; [left; reflexivity|right; tauto]. }
      pose proof (umat_pl_spec _ _ _ _ _ _ _ _ Hy Hu) as (Hs & Hyy & Hle & Hcase).
      assert (HY : Sy <= yield_before Sy (m_yield (last outs mat_zero))) by (apply yield_before_pos; auto).
      pose proof (Rabs_pos (p - m_epl (last outs mat_zero))).
      split; [exact Hle|]. split; [nra|]. split; [exact Hs|].
      rewrite Hacc. fold mat_zero. change (0, 0, 0) with mat_zero.
      unfold m_epl at 1. cbn [snd]. rewrite Hyy.
      destruct IH as [[-> ->]|(_ & _ & Hge & _ & Hacc')].
      + cbn [accumulated]. unfold yield_before, mat_zero, m_yield, m_epl. cbn [fst snd last].
        destruct (Req_EM_T 0 0); lra.
      + unfold yield_before. destruct (Req_EM_T (m_yield (last outs mat_zero)) 0); lra.
  Qed.

  Lemma mat_run_total h : exists outs, mat_run [E; K; Sy] h outs.
  Proof.
    induction h as [|e h [outs IH]] using rev_ind; [eexists; constructor|].
    destruct (umat_pl_total e 0 (m_yield (last outs mat_zero)) (m_epl (last outs mat_zero)))
      as (s & t & y & p & Hu).
    eexists. eapply mat_run_snoc; eauto.
  Qed.

  Lemma mat_run_snoc_inv h e outs : mat_run [E; K; Sy] (h ++ [e]) outs ->
    exists outs' de s t y p, outs = outs' ++ [(s, y, p)] /\ mat_run [E; K; Sy] h outs' /\
      umat_elplast_iso e de [E; K; Sy]
        (Some [m_yield (last outs' mat_zero); m_epl (last outs' mat_zero)]) = Ok (s, t, Some [y; p]).
  Proof.
    intros H. inversion H as [Hn|h' outs' e' de s t y p Hr Hu Heq Ho].
    - destruct h; discriminate.
    - apply app_inj_tail in Heq. destruct Heq as [-> ->]. repeat eexists; eauto.
  Qed.

  Lemma mat_run_length h outs : mat_run [E; K; Sy] h outs -> length outs = length h.
  Proof. induction 1; auto. rewrite !app_length, IHmat_run. reflexivity. Qed.
End Iso.

(** Derivative of the plastic stress away from the yield limit. *)
Lemma umat_pl_derivative E K Sy y p de (sig tan : R -> R) :
  0 < E -> 0 <= K -> 0 < yield_before Sy y ->
  (forall e, exists st, umat_elplast_iso e de [E; K; Sy] (Some [y; p]) = Ok (sig e, tan e, st)) ->
  forall e, Rabs (E * (e - p)) <> yield_before Sy y ->
  derivable_pt_lim sig e (tan e).
Proof.
  intros HE HK HY Hs e Hne. apply is_derive_Reals.
  set (Y := yield_before Sy y) in *.
  assert (Hsig : forall e, sig e = (if Rle_dec (Rabs (E * (e - p)) - Y) 0 then E * (e - p)
     else (1 - (Rabs (E * (e - p)) - Y) / (E + K) * E / Rabs (E * (e - p))) * (E * (e - p)))).
  { intros e'. destruct (Hs e') as [st H]. rewrite umat_pl_eq in H. cbn zeta in H. fold Y in H.
    destruct (Rle_dec _ 0); congruence. }
  assert (Htan : tan e = if Rle_dec (Rabs (E * (e - p)) - Y) 0 then E else E * K / (E + K)).
  { destruct (Hs e) as [st H]. rewrite umat_pl_eq in H. cbn zeta in H. fold Y in H.
    destruct (Rle_dec _ 0); congruence. }
  assert (Hcont : continuous (fun e => Rabs (E * (e - p)) - Y) e).
  { apply (continuous_minus (fun e => Rabs (E * (e - p))) (fun _ => Y)); [|apply continuous_const].
    apply continuous_comp; [|apply continuous_Rabs].
    apply (ex_derive_continuous (fun e => E * (e - p))). auto_derive. exact I. }
  rewrite Htan. clear Htan Hs.
  destruct (Rle_dec (Rabs (E * (e - p)) - Y) 0) as [Hle|Hgt].
  - assert (Hlt : Rabs (E * (e - p)) - Y < 0) by lra.
    apply is_derive_ext_loc with (fun e => E * (e - p)).
    + assert (Hev := Hcont _ (open_lt 0 _ Hlt)). unfold filtermap in Hev.
      eapply filter_imp; [|exact Hev]. intros e' He'. cbn beta in He'. rewrite Hsig. destruct (Rle_dec _ 0); lra.
    + auto_derive; auto. ring.
  - assert (Hlt : 0 < Rabs (E * (e - p)) - Y) by lra.
    set (sg := if Rlt_dec 0 (e - p) then 1 else -1).
    apply is_derive_ext_loc with
      (fun e => E * (e - p) - (sg * (E * (e - p)) - Y) / (E + K) * E * sg).
    + assert (Hev := Hcont _ (open_gt 0 _ Hlt)). unfold filtermap in Hev.
      assert (Hne0 : e - p <> 0).
      { intros H0. rewrite H0, Rmult_0_r, Rabs_R0 in Hlt. lra. }
      assert (Hc2 : continuous (fun e => sg * (e - p)) e).
      { apply (ex_derive_continuous (fun e => sg * (e - p))). auto_derive. exact I. }
      assert (Hp : 0 < sg * (e - p)).
      { unfold sg. destruct (Rlt_dec 0 (e - p)); lra. }
      assert (Hev2 := Hc2 _ (open_gt 0 _ Hp)). unfold filtermap in Hev2.
      eapply filter_imp; [|exact (filter_and _ _ Hev Hev2)]. intros e' [He1 He2]. cbn beta in He1, He2.
      rewrite Hsig. destruct (Rle_dec _ 0); [lra|].
      assert (Hab : Rabs (E * (e' - p)) = sg * (E * (e' - p))).
      { unfold sg in *. destruct (Rlt_dec 0 (e - p)).
        - rewrite Rabs_right; nra.
        - rewrite Rabs_left; nra. }
      assert (Hab0 : Rabs (E * (e' - p)) <> 0) by lra.
      rewrite Hab in *. clear - HE HK Hab0 He2. unfold sg in *.
      match goal with |- @eq _ ?a ?b => change (@eq R a b) end.
      destruct (Rlt_dec 0 (e - p)); field; repeat split; try lra; intro Hz; apply Hab0.
    + assert (Hss : sg * sg = 1) by (unfold sg; destruct (Rlt_dec 0 (e - p)); lra).
      auto_derive; [lra|]. field_simplify; [|lra|lra].
      replace (sg ^ 2) with 1 by (rewrite <- Hss; ring). field. lra.
Qed.

(** Idempotence. *)
Lemma umat_pl_idem E K Sy e de de' y p s t y' p' :
  0 < E -> 0 <= K -> 0 < Sy -> y = 0 \/ Sy <= y ->
  umat_elplast_iso e de [E; K; Sy] (Some [y; p]) = Ok (s, t, Some [y'; p']) ->
  umat_elplast_iso e de' [E; K; Sy] (Some [y'; p']) = Ok (s, E, Some [y'; p']).
Proof.
  intros HE HK HS Hy Hu.
  destruct (umat_pl_spec E K Sy HE HK HS _ _ _ _ _ _ _ _ Hy Hu) as (Hs & Hyy & Hle & Hcase).
  assert (HY := yield_before_pos Sy y Hy).
  pose proof (Rabs_pos (p' - p)).
  rewrite umat_pl_eq. cbn zeta. unfold yield_before at 1 2 3 4 5. destruct (Req_EM_T y' 0) as [Hz|_]; [nra|].
  rewrite <- Hs. destruct (Rle_dec (Rabs s - y') 0); [|lra].
  repeat f_equal; lra.
Qed.

(** Mirror symmetry of one evaluation. *)
Lemma umat_pl_mirror E K Sy e de y p s t y' p' :
  umat_elplast_iso e de [E; K; Sy] (Some [y; p]) = Ok (s, t, Some [y'; p']) ->
  umat_elplast_iso (- e) (- de) [E; K; Sy] (Some [y; - p]) = Ok (- s, t, Some [y'; - p']).
Proof.
  rewrite !umat_pl_eq. cbn zeta.
  replace (E * (- e - - p)) with (- (E * (e - p))) by ring.
  rewrite Rabs_Ropp.
  assert (Hsg : forall x, fsign (- x) = - fsign x).
  { intros x. rewrite !fsignR. destruct (Rlt_dec 0 (- x)), (Rlt_dec 0 x), (Rlt_dec x 0), (Rlt_dec (- x) 0); lra. }
  destruct (Rle_dec _ 0); intros H; injection H as <- <- <- <-.
  - reflexivity.
  - rewrite Hsg. repeat f_equal; ring.
Qed.

(** ** Statements used by PropMaterial.v *)

Lemma elastic_law E rest e de st :
  umat_el e de (E :: rest) st = Ok (E * e, E, st).
Proof. reflexivity. Qed.

Lemma elastic_derivative E rest de st (sig tan : R -> R) :
  (forall e, exists st', umat_el e de (E :: rest) st = Ok (sig e, tan e, st')) ->
  forall e, derivable_pt_lim sig e (tan e).
Proof.
  intros H e. assert (Hs : forall e, sig e = E * e /\ tan e = E).
  { intros e'. destruct (H e') as [st' H']. rewrite elastic_law in H'. injection H' as <- <- _. auto. }
  destruct (Hs e) as [_ ->]. apply is_derive_Reals.
  apply is_derive_ext with (fun e => E * e); [intros; symmetry; apply Hs|].
  auto_derive; auto. ring.
Qed.

Lemma yield_bound E K Sy h e outs :
  0 < E -> 0 <= K -> 0 < Sy ->
  mat_run [E; K; Sy] (h ++ [e]) outs ->
  exists outs' o, outs = outs' ++ [o] /\ mat_run [E; K; Sy] h outs' /\
    Rabs (m_stress o) <= m_yield o /\ Sy <= m_yield o /\
    m_yield (last outs' mat_zero) <= m_yield o.
Proof.
  intros HE HK HS H.
  pose proof (mat_run_inv E K Sy HE HK HS _ _ H) as Hi.
  destruct (mat_run_snoc_inv _ _ _ _ _ _ H) as (outs' & de & s & t & y & p & -> & Hr & Hu).
  cbn zeta in Hi. rewrite last_snoc in Hi.
  destruct Hi as [[Hn _]|(_ & Hs & Hy & _)]; [destruct outs'; discriminate|].
  exists outs', (s, y, p). repeat split; auto.
  pose proof (mat_run_inv E K Sy HE HK HS _ _ Hr) as Hi'. cbn zeta in Hi'.
  assert (Hy' : m_yield (last outs' mat_zero) = 0 \/ Sy <= m_yield (last outs' mat_zero)).
  { destruct Hi' as [[_ Hi']|Hi']; [left; rewrite Hi'; reflexivity|right; tauto]. }
  destruct (umat_pl_spec E K Sy HE HK HS _ _ _ _ _ _ _ _ Hy' Hu) as (_ & Hyy & _).
  change (m_yield (s, y, p)) with y. rewrite Hyy.
  pose proof (Rabs_pos (p - m_epl (last outs' mat_zero))).
  unfold yield_before. destruct (Req_EM_T (m_yield (last outs' mat_zero)) 0); nra.
Qed.

Lemma split_and_hardening E K Sy h e outs :
  0 < E -> 0 <= K -> 0 < Sy ->
  mat_run [E; K; Sy] (h ++ [e]) outs ->
  let o := last outs mat_zero in
  m_stress o = E * (e - m_epl o) /\ m_yield o = Sy + K * accumulated 0 outs.
Proof.
  intros HE HK HS H o.
  pose proof (mat_run_inv E K Sy HE HK HS _ _ H) as Hi. cbn zeta in Hi. fold o in Hi.
  rewrite last_snoc in Hi.
  destruct Hi as [[Hn _]|(_ & _ & _ & Hs & Hy)]; auto.
  apply mat_run_length in H. rewrite Hn, app_length in H. cbn in H. lia.
Qed.

Lemma kuhn_tucker E K Sy h outs e de s t y p :
  0 < E -> 0 <= K -> 0 < Sy ->
  mat_run [E; K; Sy] h outs ->
  let y0 := m_yield (last outs mat_zero) in
  let p0 := m_epl (last outs mat_zero) in
  umat_elplast_iso e de [E; K; Sy] (Some [y0; p0]) = Ok (s, t, Some [y; p]) ->
  let Y := yield_before Sy y0 in
  (Rabs (E * (e - p0)) <= Y -> s = E * (e - p0) /\ p = p0 /\ y = Y) /\
  (Y < Rabs (E * (e - p0)) ->
     Rabs s = y /\ 0 < (p - p0) * s /\ y = Y + K * Rabs (p - p0)).
Proof.
  intros HE HK HS Hr y0 p0 Hu Y.
  pose proof (mat_run_inv E K Sy HE HK HS _ _ Hr) as Hi. cbn zeta in Hi. fold y0 p0 in Hi.
  assert (Hy' : y0 = 0 \/ Sy <= y0).
  { destruct Hi as [[_ Hi]|Hi]; [left; unfold y0; rewrite Hi; reflexivity|right; unfold y0; tauto]. }
  destruct (umat_pl_spec E K Sy HE HK HS _ _ _ _ _ _ _ _ Hy' Hu) as (Hs & Hyy & Hle & Hc).
  fold Y in Hyy, Hc.
  assert (HY := yield_before_pos Sy y0 Hy'). fold Y in HY.
  split; intros Hcase.
  - destruct Hc as [(_ & H1 & H2 & _)|(H1 & _)]; [|lra].
    subst p. rewrite Rminus_eq_0, Rabs_R0 in Hyy. repeat split; auto; lra.
  - destruct Hc as [(H1 & _)|(_ & Has & _ & dg & Hdg & _ & Hp & _)]; [lra|].
    split; [exact Has|]. split; [|exact Hyy].
    assert (Hn0 : s <> 0).
    { intros ->. rewrite Rabs_R0 in Has. pose proof (Rabs_pos (p - p0)). nra. }
    replace (p - p0) with (dg * fsign s) by lra.
    rewrite fsignR. destruct (Rlt_dec 0 s); [nra|]. destruct (Rlt_dec s 0); [nra|lra].
Qed.

Lemma elastic_below_yield E K Sy e de y p :
  Rabs (E * (e - p)) <= yield_before Sy y ->
  umat_elplast_iso e de [E; K; Sy] (Some [y; p])
  = Ok (E * (e - p), E, Some [yield_before Sy y; p]).
Proof.
  intros H. rewrite umat_pl_eq. cbn zeta. destruct (Rle_dec _ 0); [|lra].
  do 4 f_equal. lra.
Qed.

Lemma reevaluation E K Sy h outs e de s t y p de' :
  0 < E -> 0 <= K -> 0 < Sy ->
  mat_run [E; K; Sy] h outs ->
  umat_elplast_iso e de [E; K; Sy]
    (Some [m_yield (last outs mat_zero); m_epl (last outs mat_zero)]) = Ok (s, t, Some [y; p]) ->
  umat_elplast_iso e de' [E; K; Sy] (Some [y; p]) = Ok (s, E, Some [y; p]).
Proof.
  intros HE HK HS Hr Hu. refine (umat_pl_idem _ _ _ _ _ _ _ _ _ _ _ _ HE HK HS _ Hu).
  pose proof (mat_run_inv E K Sy HE HK HS _ _ Hr) as Hi. cbn zeta in Hi.
  destruct Hi as [[_ ->]|Hi]; [left; reflexivity|right; tauto].
Qed.

Definition mirror (o : mat_state) : mat_state := (- m_stress o, m_yield o, - m_epl o).

Lemma mirror_history E K Sy h outs :
  mat_run [E; K; Sy] h outs ->
  mat_run [E; K; Sy] (map Ropp h) (map (fun o => (- m_stress o, m_yield o, - m_epl o)) outs).
Proof.
  induction 1 as [|h outs e de s t y p Hr IH Hu]; cbn [map]; [constructor|].
  rewrite !map_app. cbn [map]. unfold m_stress at 2, m_yield at 2, m_epl at 2. cbn [fst snd].
  eapply mat_run_snoc with (de := - de) (t := t); [exact IH|].
  apply umat_pl_mirror in Hu.
  assert (Hl : forall l, last (map mirror l) mat_zero = mirror (last l mat_zero)).
  { induction l as [|x [|w l] IHl]; auto.
    unfold mirror, mat_zero, m_stress, m_yield, m_epl. cbn. rewrite Ropp_0. reflexivity. }
  fold mirror. change (fun o : mat_state => (- m_stress o, m_yield o, - m_epl o)) with mirror.
  rewrite Hl. exact Hu.
Qed.
