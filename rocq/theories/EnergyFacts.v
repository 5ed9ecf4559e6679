(** * The residual as derivative of a potential (R) *)
From Coq Require Import List ZArith Bool Arith Lia Reals Lra Psatz.
From Coquelicot Require Import Coquelicot.
Import ListNotations.
From Verif Require Import Num NumR Vec Handlers Material Analysis Truss Equil Solver ListFacts SpecMaterial SpecMech SpecMechR SpecEnergy.
From Verif Require Import MaterialFacts EquilFacts MechFacts StiffFacts TangentFacts.
Local Open Scope R_scope.

Ltac eqR := try match goal with |- @eq _ ?a ?b => change (@eq R a b) end.

(** ** Material *)
Lemma max2_derive x : is_derive (fun x => (Rmax 0 x) ^ 2) x (2 * Rmax 0 x).
Proof.
  apply is_derive_Reals. intros eps He. exists (mkposreal eps He). intros h Hh Hd. cbn in Hd.
  assert (B : Rabs ((Rmax 0 (x + h)) ^ 2 - (Rmax 0 x) ^ 2 - 2 * Rmax 0 x * h) <= h * h).
  { unfold Rmax. destruct (Rle_dec 0 (x + h)), (Rle_dec 0 x); apply Rabs_le; nra. }
  replace (((Rmax 0 (x + h)) ^ 2 - (Rmax 0 x) ^ 2) / h - 2 * Rmax 0 x)
    with (((Rmax 0 (x + h)) ^ 2 - (Rmax 0 x) ^ 2 - 2 * Rmax 0 x * h) / h) by (field; exact Hh).
  unfold Rdiv. rewrite Rabs_mult, Rabs_inv.
  apply Rle_lt_trans with (h * h * / Rabs h).
  - apply Rmult_le_compat_r; [|exact B]. left. apply Rinv_0_lt_compat, Rabs_pos_lt, Hh.
  - replace (h * h) with (Rabs h * Rabs h) by (rewrite <- Rabs_mult; apply Rabs_right; nra).
    rewrite Rmult_assoc, Rinv_r, Rmult_1_r by (apply Rabs_no_R0, Hh). exact Hd.
Qed.

Lemma max_abs x Y : 0 < Y -> (Rmax 0 (Rabs x - Y)) ^ 2 = (Rmax 0 (x - Y)) ^ 2 + (Rmax 0 (- x - Y)) ^ 2.
Proof.
  intros HY. unfold Rmax, Rabs. destruct (Rcase_abs x); repeat destruct (Rle_dec _ _); try lra; try ring; nra.
Qed.

Lemma stress_flow E K Sy rest e de y p sr s t st : 0 < E -> 0 <= K -> 0 < yield_before Sy y ->
  umat_elplast_iso e de (E :: K :: Sy :: rest) (Some (y :: p :: sr)) = Ok (s, t, st) ->
  s = E * (e - p) - E * ((Rmax 0 (E * (e - p) - yield_before Sy y) - Rmax 0 (- (E * (e - p)) - yield_before Sy y)) / (E + K)).
Proof.
  intros HE HK HY. rewrite umat_pl_pad, umat_pl_eq. cbn zeta. set (Y := yield_before Sy y) in *. set (tr := E * (e - p)).
  destruct (Rle_dec (Rabs tr - Y) 0) as [H|H]; intros X; injection X as <- _ _.
  - unfold Rabs in H. destruct (Rcase_abs tr); rewrite !Rmax_left by lra; field; lra.
  - unfold Rabs in *. destruct (Rcase_abs tr).
    + rewrite (Rmax_left 0 (tr - Y)), Rmax_right by lra. field. lra.
    + rewrite (Rmax_right 0 (tr - Y)), Rmax_left by lra. field. lra.
Qed.

Lemma density_derive u mat row e de s t st :
  umat (F:=R) u e de mat row = Ok (s, t, st) ->
  match u, mat, row with
  | UmatPl, E :: K :: Sy :: _, Some (y :: _) => 0 < E /\ 0 <= K /\ 0 < yield_before Sy y
  | _, _, _ => True
  end ->
  is_derive (density u mat row) e s.
Proof.
  intros H Hs. destruct u; cbn [umat] in *.
  - unfold umat_el, item in H. destruct mat as [|E rest]; [discriminate|]. cbn in H. injection H as <- <- <-.
    apply (is_derive_ext (fun e => E / 2 * e ^ 2)); [intros; reflexivity|]. auto_derive; auto. eqR. numR. field.
  - destruct (umat_pl_shape _ _ _ _ _ H) as (E & K & Sy & rest & y & p & sr & -> & ->). destruct Hs as (HE & HK & HY).
    rewrite (stress_flow E K Sy rest e de y p sr s t st HE HK HY H). cbn [density]. set (Y := yield_before Sy y) in *.
    apply (is_derive_ext (fun e => E / 2 * (e - p) ^ 2 - ((Rmax 0 (E * (e - p) - Y)) ^ 2 + (Rmax 0 (- (E * (e - p)) - Y)) ^ 2) / (2 * (E + K)))).
    { intros x. cbn [density]. fold Y. rewrite max_abs by exact HY. reflexivity. }
    assert (D1 : is_derive (fun e => (Rmax 0 (E * (e - p) - Y)) ^ 2) e (E * (2 * Rmax 0 (E * (e - p) - Y)))).
    { apply (is_derive_comp (fun x => (Rmax 0 x) ^ 2) (fun e => E * (e - p) - Y) e); [apply max2_derive|].
      auto_derive; auto. eqR. ring. }
    assert (D2 : is_derive (fun e => (Rmax 0 (- (E * (e - p)) - Y)) ^ 2) e (- E * (2 * Rmax 0 (- (E * (e - p)) - Y)))).
    { apply (is_derive_comp (fun x => (Rmax 0 x) ^ 2) (fun e => - (E * (e - p)) - Y) e); [apply max2_derive|].
      auto_derive; auto. eqR. ring. }
    assert (D0 : is_derive (fun e => E / 2 * (e - p) ^ 2) e (E * (e - p))).
    { auto_derive; auto. eqR. field. }
    pose proof (is_derive_plus _ _ _ _ _ D1 D2) as D12.
    pose proof (is_derive_scal _ _ (/ (2 * (E + K))) _ D12) as D3.
    pose proof (is_derive_minus _ _ _ _ _ D0 D3) as D4.
    eapply is_derive_ext; [|evar_last; [exact D4|]].
    { intros x. unfold minus, plus, opp. cbn. eqR. field. lra. }
    unfold minus, plus, opp, scal. cbn. unfold mult. cbn. eqR. field. lra.
Qed.

(** The plastic strain returned by the law spends the least energy. *)
Lemma density_least E K Sy rest y p sr e : 0 < E -> 0 <= K -> 0 < yield_before Sy y ->
  (forall d, density UmatPl (E :: K :: Sy :: rest) (Some (y :: p :: sr)) e <= plastic_energy E K (yield_before Sy y) p e d) /\
  (forall de s t y' p' sr', umat_elplast_iso e de (E :: K :: Sy :: rest) (Some (y :: p :: sr)) = Ok (s, t, Some (y' :: p' :: sr')) ->
    density UmatPl (E :: K :: Sy :: rest) (Some (y :: p :: sr)) e = plastic_energy E K (yield_before Sy y) p e (p' - p)).
Proof.
  intros HE HK HY. cbn [density]. unfold plastic_energy. set (Y := yield_before Sy y) in *. split.
  - intros d. set (x := Rabs (E * (e - p)) - Y). set (M := Rmax 0 x).
    assert (H1 : E * (e - p) * d <= Rabs (E * (e - p)) * Rabs d) by (rewrite <- Rabs_mult; apply Rle_abs).
    assert (H2 : x * Rabs d <= M * Rabs d) by (apply Rmult_le_compat_r; [apply Rabs_pos|apply Rmax_r]).
    assert (H3 : d ^ 2 = Rabs d ^ 2) by (rewrite pow2_abs; reflexivity).
    assert (H4 : M ^ 2 / (2 * (E + K)) - M * Rabs d + (E + K) / 2 * Rabs d ^ 2 = (M - (E + K) * Rabs d) ^ 2 / (2 * (E + K))) by (field; lra).
    assert (H5 : 0 <= (M - (E + K) * Rabs d) ^ 2 / (2 * (E + K))).
    { apply Rmult_le_pos; [apply pow2_ge_0|]. left. apply Rinv_0_lt_compat. lra. }
    unfold x in *. replace (E / 2 * (e - p - d) ^ 2) with (E / 2 * (e - p) ^ 2 - E * (e - p) * d + E / 2 * d ^ 2) by field.
    rewrite H3. lra.
  - intros de s t y' p' sr'. rewrite umat_pl_pad, umat_pl_eq. cbn zeta. fold Y. set (tr := E * (e - p)).
    destruct (Rle_dec (Rabs tr - Y) 0) as [H|H]; intros X; injection X as _ _ _ <- _.
    + rewrite Rmax_left by lra. rewrite Rminus_eq_0, Rabs_R0. field. lra.
    + rewrite Rmax_right by lra. set (dg := (Rabs tr - Y) / (E + K)).
      assert (Hd : 0 < dg) by (apply Rdiv_lt_0_compat; lra).
      replace (p + dg * fsign tr - p) with (dg * fsign tr) by ring.
      assert (Et : e - p = tr / E) by (unfold tr; field; lra).
      unfold Rabs in H. destruct (Rcase_abs tr) as [Hn|Hn].
      * assert (Hs : fsign tr = - 1) by (rewrite fsignR; destruct (Rlt_dec 0 tr); [lra|]; destruct (Rlt_dec tr 0); lra). rewrite Hs, (Rabs_left (dg * - 1)) by lra.
        unfold dg. rewrite Et. rewrite (Rabs_left tr Hn). field. lra.
      * assert (Hs : fsign tr = 1) by (rewrite fsignR; destruct (Rlt_dec 0 tr); lra). rewrite Hs, (Rabs_right (dg * 1)) by lra.
        unfold dg. rewrite Et. rewrite (Rabs_right tr Hn). field. lra.
Qed.

(** ** Loads *)
Lemma work_set f : forall v q t, length f = length v -> (q < length v)%nat ->
  rsum (map2 Rmult f (set_nth q t v)) = rsum (map2 Rmult f v) + nth q f 0 * (t - nth q v 0).
Proof.
  induction f as [|a f IH]; intros [|b v] q t Hl Hq; cbn in Hl, Hq; try lia.
  destruct q as [|q]; cbn [set_nth map2 rsum fold_right nth].
  - ring.
  - fold (rsum (map2 Rmult f (set_nth q t v))). fold (rsum (map2 Rmult f v)). rewrite IH by lia. ring.
Qed.

Lemma load_work_set f (U : list (v3 R)) q t : length f = (3 * length U)%nat -> (q < 3 * length U)%nat ->
  load_work f (put_flat1 U q t) = load_work f U + nth q f 0 * (t - nth q (vflat U) 0).
Proof. intros Hl Hq. unfold load_work. rewrite put_flat1_flat by exact Hq. apply work_set; rewrite vflat_length; lia. Qed.

(** ** Members *)
Lemma seq_zipk ms (qs : list (truss_q (F:=R))) : length qs = length ms ->
  combine (seq 0 (length ms)) ms = map (fun x => (fst x, fst (snd x))) (zipk 0 ms qs).
Proof.
  intros Hl. apply nth_error_ext. intros k. rewrite nth_error_map, nth_error_zipk, nth_error_combine, nth_error_seq by exact Hl.
  destruct (nth_error ms k) as [m|] eqn:E.
  - assert (k < length ms)%nat by (apply nth_error_Some; congruence). destruct (Nat.ltb_spec k (length ms)); [|lia].
    destruct (nth_error qs k) as [q|] eqn:Eq; [reflexivity|]. apply nth_error_None in Eq. lia.
  - destruct (Nat.ltb k (length ms)); reflexivity.
Qed.

Lemma member_energy dens s A L a w t0 : len a <> 0 -> L <> 0 -> is_derive dens (len a / L - 1) s ->
  is_derive (fun x => A * L * dens (len (vadd a (vscale (x - t0) w)) / L - 1)) t0 (A * s * (vdot a w / len a)).
Proof.
  intros Ha HL Hd. pose proof (len_derive a w t0 Ha) as Hl.
  set (ell := fun x => len (vadd a (vscale (x - t0) w))) in *.
  assert (E0 : ell t0 = len a).
  { unfold ell. f_equal. replace (t0 - t0) with 0 by ring. veq. }
  assert (Hin : is_derive (fun x => ell x / L - 1) t0 (/ L * (vdot a w / len a))).
  { evar_last.
    - apply (is_derive_minus (fun x => ell x / L) (fun _ => 1)); [|apply is_derive_const].
      apply (is_derive_ext (fun x => scal (/ L) (ell x))); [intros x; unfold scal; cbn; unfold mult; cbn; unfold Rdiv; ring|].
      apply is_derive_scal. exact Hl.
    - unfold minus, plus, opp, zero, scal. cbn. unfold mult. cbn. eqR. ring. }
  evar_last.
  - apply (is_derive_scal (fun x => dens (ell x / L - 1)) t0 (A * L)).
    apply (is_derive_comp dens (fun x => ell x / L - 1) t0); [rewrite E0; exact Hd|exact Hin].
  - unfold scal. cbn. unfold mult. cbn. eqR. field. auto.
Qed.

Lemma vdot_unit (a : v3 R) s d : (d < 3)%nat -> vdot a (vscale s (unit3 d)) = s * vget a d.
Proof.
  intros Hd. destruct a as [a1 a2 a3]. unfold unit3, vscale, vdot, vzero, vmap, vmap2.
  destruct d as [|[|[|]]]; try lia; cbn [vget vset vx vy vz]; numR; ring.
Qed.

Lemma potential_derive c ms u lam V0 w an an' g j :
  truss_ok c ms -> sizes_ok c ms an -> loads_ok c an ->
  length u = c_ndof1 c -> length V0 = S (c_ndof1 c) ->
  equilibrium c (u ++ [lam]) V0 w an = Ok (an', g) -> sound c ms an (a_U an') -> (j < c_ndof1 c)%nat ->
  is_derive (fun t => potential c ms an lam (displaced (equilibrium c (set_nth j t u ++ [lam]) V0 w an)))
            (nth j u 0) (- nth j g 0).
Proof.
  intros Hok Hsz Hld Hu HV0 He Hsound Hj.
  assert (Hv0 : length (u ++ [lam]) = S (c_ndof1 c)) by (rewrite app_length; cbn; lia).
  destruct (equilibrium_inv _ _ _ _ _ _ _ _ Hok Hsz He) as (an1 & u' & lam' & qs & g' & Hp & Hq & E' & _ & _).
  assert (Hlq : length qs = length ms) by (eapply quants_length; eauto).
  destruct (residual_formula _ _ _ _ _ _ _ _ Hok Hsz Hld Hv0 He) as (HS0 & Hlg & Hg). rewrite last_snoc in Hg.
  assert (Hf1 : forall x : list R, length x = c_ndof1 c -> firstn (c_ndof1 c) (x ++ [lam]) = x).
  { intros x Hx. rewrite firstn_app, Hx, Nat.sub_diag, firstn_all2 by lia. cbn. apply app_nil_r. }
  rewrite Hf1 in HS0 by exact Hu.
  pose proof Hsz as (HU & _ & _ & _ & _ & _ & _ & _ & HD & HD' & Hn & _).
  set (U0 := a_U an') in *.
  assert (HlU : length U0 = length (c_labels c)) by (apply scatter_length in HS0; congruence).
  pose proof (nth_nth_error (a_DOF1 an) j 0%nat ltac:(lia)) as Ej. set (q := nth j (a_DOF1 an) 0%nat) in *.
  assert (Hq3 : (q < 3 * length (c_labels c))%nat) by (apply HD'; eapply nth_error_In; eauto).
  assert (Hq3' : (q / 3 < length (c_labels c))%nat) by (apply Nat.div_lt_upper_bound; lia).
  pose proof (nth_nth_error (c_labels c) _ 0%Z Hq3') as Lq. set (lq := nth (q / 3) (c_labels c) 0%Z) in *.
  assert (Hcq : (q mod 3 < 3)%nat) by (apply Nat.mod_upper_bound; lia).
  assert (Hud : length u = length (a_DOF1 an)) by lia.
  assert (HqU : (q < 3 * length (a_U an))%nat) by lia.
  set (t0 := nth j u 0).
  assert (Ht0 : nth q (vflat U0) 0 = t0).
  { destruct (scatter_ok _ _ _ _ HD Hud HS0) as (_ & _ & G0). pose proof (G0 _ _ Ej) as G.
    rewrite (nth_nth_error u j 0) in G by lia. apply nth_error_nth with (d := 0) in G. exact G. }
  destruct Hld as [Ld1 Ld2].
  assert (Hpot : forall t, potential c ms an lam (displaced (equilibrium c (set_nth j t u ++ [lam]) V0 w an)) =
    minus (rsum (map (fun x => nth 0 (mb_geo (fst (snd x))) 0 * len (axis0 c (fst (snd x))) *
             density (mb_law (fst (snd x))) (mb_mat (fst (snd x))) (state_row c an (fst x))
               (len (vadd (axis c U0 (fst (snd x))) (vscale (t - t0) (vscale (sg (fst (snd x)) lq) (unit3 (q mod 3))))) / len (axis0 c (fst (snd x))) - 1)) (zipk 0 ms qs)))
      (load_work (concat (a_fconst an)) U0 + lam * load_work (concat (a_forces an)) U0 +
       (nth q (concat (a_fconst an)) 0 + lam * nth q (concat (a_forces an)) 0) * (t - t0))).
  { intros t. assert (Hv : length (set_nth j t u ++ [lam]) = S (c_ndof1 c)) by (rewrite app_length, set_nth_length; cbn; lia).
    destruct (equilibrium_total c ms _ V0 w an _ _ _ Hok Hsz (conj Ld1 Ld2) Hv HV0 Hq) as (ant & gt & Het).
    rewrite Het. cbn [displaced].
    destruct (residual_formula _ _ _ _ _ _ _ _ Hok Hsz (conj Ld1 Ld2) Hv Het) as (HS1 & _).
    rewrite Hf1 in HS1 by (rewrite set_nth_length; exact Hu).
    destruct (scatter_set _ _ _ _ _ t _ _ HD Hud Ej HS0 HS1 HqU) as [-> _].
    unfold potential, strain_energy. rewrite !load_work_set, Ht0 by lia. rewrite (seq_zipk ms qs Hlq), map_map.
    unfold minus, plus, opp. cbn. eqR. unfold Rminus. f_equal; [|ring]. f_equal. apply map_ext_in.
    intros [k [m qq]] Hin. cbn [fst snd]. f_equal. f_equal. f_equal. unfold stretch_of. f_equal. f_equal.
    rewrite <- Ht0. apply (axis_set c ms); auto. apply zipk_In in Hin. exact Hin. }
  apply (is_derive_ext _ _ _ _ (fun t => eq_sym (Hpot t))).
  rewrite (Hg _ _ _ Ej Lq), (force_sum _ _ _ _ _ _ _ _ qs lq Hok Hsz He Hlq) by (eapply nth_error_In; eauto).
  rewrite vget_vsum, map_map. fold U0.
  evar_last.
  - apply (is_derive_minus (K:=R_AbsRing) (V:=R_NormedModule)).
    + apply (rsum_derive (fun x t => nth 0 (mb_geo (fst (snd x))) 0 * len (axis0 c (fst (snd x))) *
             density (mb_law (fst (snd x))) (mb_mat (fst (snd x))) (state_row c an (fst x))
               (len (vadd (axis c U0 (fst (snd x))) (vscale (t - t0) (vscale (sg (fst (snd x)) lq) (unit3 (q mod 3))))) / len (axis0 c (fst (snd x))) - 1))
        (fun x => vget (vscale (sg (fst (snd x)) lq) (mvec_of c an U0 x)) (q mod 3))).
      intros [k [m qq]] Hin. cbn [fst snd].
      apply In_nth_error in Hin. destruct Hin as [k' Hk']. rewrite nth_error_zipk in Hk' by exact Hlq.
      destruct (nth_error ms k') as [m'|] eqn:Em; [|discriminate].
      destruct (nth_error qs k') as [q'|] eqn:Eqq; [|discriminate]. injection Hk' as -> -> ->.
      destruct (internal_forces _ _ _ _ _ _ _ _ Hok Hsz He) as [Hint _].
      destruct (Hint _ _ Em) as (s & tt & st & de & A & Hum & HA & _).
      fold U0 in Hum. destruct (Hsound _ _ Em) as (HL0 & Hl0 & Hsm).
      pose proof (density_derive _ _ _ _ _ _ _ _ Hum Hsm) as Hder.
      evar_last.
      * apply member_energy; [exact Hl0|exact HL0|exact Hder].
      * rewrite vget_vscale. unfold mvec_of, member_vec. cbn [fst snd]. rewrite !vget_vscale, vdot_unit by exact Hcq.
        change (len (axis c U0 m) / len (axis0 c m)) with (stretch_of c U0 m). rewrite (sig_of_ok _ _ _ _ _ _ _ _ Hum).
        assert (HAq : hd 0 (mb_geo m) = A) by (destruct (mb_geo m); [discriminate|injection HA as ->; reflexivity]).
        assert (HAn : nth 0 (mb_geo m) 0 = A) by (destruct (mb_geo m); [discriminate|injection HA as ->; reflexivity]).
        rewrite HAq, HAn. eqR. unfold Rdiv. ring.
    + instantiate (1 := nth q (concat (a_fconst an)) 0 + lam * nth q (concat (a_forces an)) 0).
      auto_derive; auto. eqR. ring.
  - unfold minus, plus, opp. cbn. eqR. ring.
Qed.
