(** * The acceptance test in double precision *)
From Coq Require Import List ZArith Bool Arith Lia Reals Lra SpecFloat.
From Flocq Require Import Core BinarySingleNaN Relative.
Import ListNotations.
From Verif Require Import Num Vec Handlers Material Analysis Truss Equil Solver Run ListFacts SpecMech EquilFacts
  SpecSolver SolverFacts PathFacts SpecState FrameFacts SpecRun RunFacts EvalFacts RecFacts ReachFacts SessionFacts RunProps
  SpecBuild Double SpecDouble DoubleFacts SpecRound RoundFacts Binary64 SpecBalance64.
Local Open Scope R_scope.
#[local] Existing Instance Hprec.
Local Notation fe := (FLT_exp (-1074) 53).
Local Notation rnd := (round radix2 fe ZnearestE).

Lemma rnd_one : generic_format radix2 fe 1.
Proof. change 1 with (bpow radix2 0). apply generic_format_bpow. unfold FLT_exp. cbn. lia. Qed.

Lemma rnd_le1 x : x <= 1 -> rnd x <= 1.
Proof. intros. apply round_le_generic; [typeclasses eauto|typeclasses eauto|apply rnd_one|assumption]. Qed.

Lemma val_ofZ z : finite (fofZ z) -> val (fofZ z) = rnd (IZR z).
Proof.
  cbn [fofZ NumDouble]. unfold d_ofZ. rewrite bn_equiv. intros Hf.
  pose proof (binary_normalize_correct 53 1024 Hprec Hmax mode_NE z 0 false) as HC. cbv zeta in HC.
  assert (EF : F2R (Float radix2 z 0) = IZR z) by (unfold F2R; cbn; ring). rewrite EF in HC.
  destruct (Rlt_bool _ _).
  - rewrite val_SF2R, SF2R_B2SF. apply HC.
  - rewrite HC, over_inf in Hf. destruct Hf.
Qed.

Lemma dbl_one : is_double f1.
Proof. apply (dbl_ofZ 1). Qed.
Lemma val_one : val f1 = 1.
Proof.
  rewrite val_SF2R. change (f1 : double) with (S754_finite false 4503599627370496 (-52)). cbn [SF2R]. unfold F2R. cbn [Fnum Fexp cond_Zopp].
  change (bpow radix2 (-52)) with (/ 4503599627370496). lra.
Qed.

Lemma ftol_value n : (0 <= n)%Z ->
  finite (pow10neg n : double) /\ val (pow10neg n) <= (1 + 5 * uu) * powerRZ 10 (- n) + hh * hh.
Proof.
  intros Hn. unfold pow10neg. destruct (Z.leb_spec 0 n); [|lia].
  assert (P0 : 0 < powerRZ 10 (- n)) by (apply powerRZ_lt; lra).
  pose proof uu_range as Hu. pose proof hh_range as Hh.
  assert (D : is_double (fofZ (10 ^ n))) by apply dbl_ofZ.
  assert (Hz : (1 <= 10 ^ n)%Z) by (pose proof (Z.pow_pos_nonneg 10 n ltac:(lia) Hn); lia).
  assert (ET : / IZR (10 ^ n) = powerRZ 10 (- n)).
  { rewrite <- (Z2Nat.id n Hn), <- pow_IZR. rewrite <- pow_powerRZ_neg || idtac.
    rewrite Z2Nat.id by exact Hn. destruct n as [|p|p]; [cbn; field|cbn; reflexivity|lia]. }
  assert (HT : 1 <= IZR (10 ^ n)) by (apply (IZR_le 1); exact Hz).
  destruct (fofZ (10 ^ n)) as [s|s| |s m e] eqn:Ez.
  - exfalso. assert (V : val (fofZ (10 ^ n)) = rnd (IZR (10 ^ n))) by (apply val_ofZ; rewrite Ez; exact I).
    rewrite Ez in V. cbn in V. pose proof (rnd_ge 1 _ rnd_one HT). lra.
  - split; [exact I|]. change (val (fdiv f1 (S754_infinity s))) with 0.
    assert (0 <= uu * powerRZ 10 (- n)) by nra. nra.
  - exfalso. revert Ez. cbn [fofZ NumDouble]. unfold d_ofZ. rewrite bn_equiv. intros Ez.
    pose proof (is_nan_binary_normalize 53 1024 Hprec Hmax mode_NE (10 ^ n) 0 false) as Hnn.
    rewrite <- is_nan_SF_B2SF, Ez in Hnn. discriminate.
  - rewrite <- Ez in *. assert (Fz : finite (fofZ (10 ^ n))) by (rewrite Ez; exact I).
    pose proof (val_ofZ _ Fz) as V. set (z := val (fofZ (10 ^ n))) in *. set (T := IZR (10 ^ n)) in *.
    pose proof (rnd_ge 1 _ rnd_one HT) as Z1. rewrite <- V in Z1.
    assert (Q : 0 <= / z <= 1).
    { split; [left; apply Rinv_0_lt_compat; lra|]. rewrite <- Rinv_1. apply Rinv_le_contravar; lra. }
    assert (FD : finite (fdiv f1 (fofZ (10 ^ n)))).
    { set (A := SF2B (f1 : double) dbl_one : binary_float 53 1024).
      set (B := SF2B _ D : binary_float 53 1024).
      assert (EA : B2R A = 1) by (unfold A; rewrite B2R_SF2B, <- val_SF2R; apply val_one).
      assert (EB : B2R B = z) by (unfold B; rewrite B2R_SF2B, <- val_SF2R; reflexivity).
      pose proof (div_equiv _ _ dbl_one D) as E. fold A B in E.
      pose proof (Bdiv_correct 53 1024 Hprec Hmax mode_NE A B) as HC. rewrite EA, EB in HC. specialize (HC ltac:(lra)).
      rewrite Rlt_bool_true in HC.
      - rewrite E. apply fin_SF. rewrite is_finite_SF_B2SF. destruct HC as (_ & -> & _). reflexivity.
      - unfold Rdiv. rewrite Rmult_1_l. cbn [round_mode]. rewrite Rabs_pos_eq.
        + apply Rle_lt_trans with 1; [apply rnd_le1; tauto|]. change 1 with (bpow radix2 0). apply bpow_lt. lia.
        + apply rnd_ge0. tauto. }
    split; [exact FD|].
    destruct (val_div f1 (fofZ (10 ^ n)) dbl_one D Fz ltac:(fold z; lra) FD) as [_ VD].
    rewrite VD, val_one. fold z. unfold Rdiv. rewrite Rmult_1_l.
    pose proof (rnd_err' (/ z)) as E1. rewrite (Rabs_pos_eq (/ z)) in E1 by tauto.
    pose proof (rnd_err' T) as E2. rewrite (Rabs_pos_eq T) in E2 by lra. rewrite <- V in E2.
    assert (U : rnd (/ z) <= / z * (1 + uu) + hh * hh).
    { revert E1. unfold Rabs. destruct (Rcase_abs _); lra. }
    assert (W : / z <= (1 + 3 * uu) * / T).
    { assert (hu : hh * hh <= uu).
      { rewrite <- hh_b, <- uu_b, <- bpow_plus. apply bpow_le. lia. }
      assert (L : T * (1 - 2 * uu) <= z) by (revert E2; unfold Rabs; destruct (Rcase_abs _); nra).
      assert (M : 1 <= (1 - 2 * uu) * (1 + 3 * uu)) by nra.
      apply Rmult_le_reg_r with (z * T); [nra|]. replace (/ z * (z * T)) with T by (field; lra).
      replace ((1 + 3 * uu) * / T * (z * T)) with (z * (1 + 3 * uu)) by (field; lra).
      apply Rle_trans with (T * ((1 - 2 * uu) * (1 + 3 * uu))); [nra|]. rewrite <- Rmult_assoc. apply Rmult_le_compat_r; lra. }
    rewrite ET in W. set (P := powerRZ 10 (- n)) in *.
    assert (M : (1 + 3 * uu) * (1 + uu) <= 1 + 5 * uu) by nra.
    assert (M1 : / z * (1 + uu) <= (1 + 3 * uu) * P * (1 + uu)) by (apply Rmult_le_compat_r; lra).
    assert (M2 : (1 + 3 * uu) * (1 + uu) * P <= (1 + 5 * uu) * P) by (apply Rmult_le_compat_r; lra).
    lra.
Qed.

(** ** The tests of the acceptance *)
Lemma sf_dot : forall a b : list b64, sf (fdot a b) = fdot (map sf a) (map sf b).
Proof. induction a as [|x a IH]; intros [|y b]; try reflexivity. cbn [fdot map]. cbn [sf fadd fmul NumB64]. now rewrite IH. Qed.
Lemma sf_norm (a : list b64) : sf (fnorm a) = fnorm (map sf a).
Proof. unfold fnorm. cbn [sf fsqrt NumB64]. now rewrite sf_dot. Qed.
Lemma sf_pow n : sf (pow10neg n) = pow10neg n.
Proof. unfold pow10neg. destruct (0 <=? n)%Z; reflexivity. Qed.

Lemma digits_of n g s t : (0 <= n)%Z ->
  Rabs g <= (1 + 8 * uu) * val (pow10neg n) + 4 * hh ->
  Rabs s <= (1 + 2 * uu) * Rabs g + uu * t + 4 * hh -> digits n s t.
Proof.
  intros Hn H1 H2. destruct (ftol_value n Hn) as [_ H3]. unfold digits. fold uu.
  assert (P0 : 0 < powerRZ 10 (- n)) by (apply powerRZ_lt; lra).
  replace (powerRZ 2 (-48)) with (32 * uu).
  2: { rewrite <- uu_b. change 32 with (bpow radix2 5). rewrite <- bpow_plus, bpow_powerRZ. reflexivity. }
  assert (H4 : 100 * hh <= powerRZ 2 (-500)).
  { replace (powerRZ 2 (-500)) with (bpow radix2 (-500)) by (rewrite bpow_powerRZ; reflexivity).
    apply Rle_trans with (bpow radix2 7 * hh).
    - change (bpow radix2 7) with 128. pose proof hh_range. lra.
    - rewrite <- hh_b, <- bpow_plus. apply bpow_le. lia. }
  pose proof uu_range as Hu. pose proof hh_range as Hh. set (P := powerRZ 10 (- n)) in *. set (T := val (pow10neg n)) in *.
  assert (A1 : hh * hh <= hh) by nra.
  assert (A2 : (1 + 8 * uu) * T <= (1 + 8 * uu) * ((1 + 5 * uu) * P + hh)) by (apply Rmult_le_compat_l; lra).
  assert (A3 : (1 + 2 * uu) * Rabs g <= (1 + 2 * uu) * ((1 + 8 * uu) * ((1 + 5 * uu) * P + hh) + 4 * hh)) by (apply Rmult_le_compat_l; lra).
  assert (A4 : (1 + 2 * uu) * (1 + 8 * uu) <= 1 + 11 * uu) by nra.
  assert (A5 : (1 + 11 * uu) * (1 + 5 * uu) <= 1 + 32 * uu) by nra.
  assert (A6 : (1 + 2 * uu) * (1 + 8 * uu) * (1 + 5 * uu) <= 1 + 32 * uu) by nra.
  assert (A7 : (1 + 2 * uu) * (1 + 8 * uu) * (1 + 5 * uu) * P <= (1 + 32 * uu) * P) by (apply Rmult_le_compat_r; lra).
  assert (A8 : (1 + 2 * uu) * (1 + 8 * uu) * hh <= 2 * hh) by (apply Rmult_le_compat_r; lra).
  assert (A9 : (1 + 2 * uu) * (4 * hh) <= 2 * (4 * hh)) by (apply Rmult_le_compat_r; lra).
  replace ((1 + 2 * uu) * ((1 + 8 * uu) * ((1 + 5 * uu) * P + hh) + 4 * hh))
    with ((1 + 2 * uu) * (1 + 8 * uu) * (1 + 5 * uu) * P + (1 + 2 * uu) * (1 + 8 * uu) * hh + (1 + 2 * uu) * (4 * hh)) in A3 by ring.
  lra.
Qed.

(** A sum of two rounded terms, rounded. *)
Lemma two_sum s p :
  Rabs (s + p) <= (1 + 2 * uu) * Rabs (rnd (s + p)) + 2 * hh.
Proof.
  pose proof (rnd_err' (s + p)) as E. pose proof uu_range as Hu. pose proof hh_range as Hh.
  set (z := s + p) in *. assert (A1 : hh * hh <= hh) by nra.
  assert (A2 : Rabs z * (1 - uu) <= Rabs (rnd z) + hh * hh).
  { pose proof (Rabs_triang (rnd z) (z - rnd z)) as T. replace (rnd z + (z - rnd z)) with z in T by ring.
    rewrite (Rabs_minus_sym z) in T. lra. }
  assert (A3 : 1 <= (1 - uu) * (1 + 2 * uu)) by nra. pose proof (Rabs_pos z). pose proof (Rabs_pos (rnd z)).
  assert (A4 : Rabs z * 1 <= Rabs z * ((1 - uu) * (1 + 2 * uu))) by (apply Rmult_le_compat_l; lra).
  assert (A5 : Rabs z * (1 - uu) * (1 + 2 * uu) <= (Rabs (rnd z) + hh * hh) * (1 + 2 * uu)) by (apply Rmult_le_compat_r; lra).
  assert (A6 : hh * hh * (1 + 2 * uu) <= hh * 2) by nra. lra.
Qed.

Lemma residual_sum (r c l f : double) : is_double r -> is_double c -> is_double l -> is_double f ->
  let g := fadd (fadd (fopp r) c) (fmul l f) in finite g ->
  Rabs (- val r + val c + val l * val f) <=
  (1 + 2 * uu) * Rabs (val g) + uu * (Rabs (val r) + Rabs (val c) + Rabs (val l * val f)) + 4 * hh.
Proof.
  intros Dr Dc Dl Df g Hg. destruct (fin_add _ _ Hg) as [F1 F2].
  destruct (val_add _ _ (dbl_opp _ Dr) Dc F1) as [D1 V1]. destruct (val_mul _ _ Dl Df F2) as [D2 V2].
  destruct (val_add _ _ D1 D2 Hg) as [_ V3]. unfold g. rewrite V3. rewrite val_opp in V1.
  pose proof (rnd_err' (- val r + val c)) as E1. rewrite <- V1 in E1.
  pose proof (rnd_err' (val l * val f)) as E2. rewrite <- V2 in E2.
  set (s := val (fadd (fopp r) c)) in *. set (p := val (fmul l f)) in *. pose proof (two_sum s p) as T.
  pose proof uu_range as Hu. pose proof hh_range as Hh. assert (A1 : hh * hh <= hh) by nra.
  replace (- val r + val c + val l * val f) with ((s + p) - (s - (- val r + val c)) - (p - val l * val f)) by ring.
  pose proof (Rabs_triang (s + p - (s - (- val r + val c))) (- (p - val l * val f))) as B1. rewrite Rabs_Ropp in B1.
  pose proof (Rabs_triang (s + p) (- (s - (- val r + val c)))) as B2. rewrite Rabs_Ropp in B2.
  pose proof (Rabs_triang (- val r) (val c)) as B3. rewrite Rabs_Ropp in B3.
  assert (B4 : uu * Rabs (- val r + val c) <= uu * (Rabs (val r) + Rabs (val c))) by (apply Rmult_le_compat_l; lra).
  unfold Rminus in *. lra.
Qed.

Lemma control_sum (x x0 d : double) j : is_double x -> is_double x0 -> is_double d ->
  let q := fsub x (fadd x0 (fmul d (fofZ (Z.sgn j)))) in finite q ->
  Rabs (val x - (val x0 + val d * IZR (Z.sgn j))) <=
  (1 + 2 * uu) * Rabs (val q) + uu * (Rabs (val x0) + Rabs (val d)) + 4 * hh.
Proof.
  intros Dx Dx0 Dd q Hq. destruct (fin_sub _ _ Hq) as [_ F1]. destruct (fin_add _ _ F1) as [_ F2].
  destruct (fin_mul _ _ F2) as [_ F3].
  assert (Ds : is_double (fofZ (Z.sgn j))) by apply dbl_ofZ.
  destruct (val_mul _ _ Dd Ds F2) as [D2 V2]. destruct (val_add _ _ Dx0 D2 F1) as [D1 V1].
  destruct (val_sub _ _ Dx D1 Hq) as [_ V0]. unfold q. rewrite V0.
  assert (VS : val (fofZ (Z.sgn j)) = IZR (Z.sgn j)).
  { rewrite (val_ofZ _ F3). apply round_generic; [typeclasses eauto|].
    destruct j; cbn [Z.sgn]; [apply generic_format_0|apply rnd_one|].
    change (-1) with (- (1)). apply generic_format_opp, rnd_one. }
  assert (VM : val (fmul d (fofZ (Z.sgn j))) = val d * IZR (Z.sgn j)).
  { rewrite V2, VS. apply round_generic; [typeclasses eauto|].
    destruct j; cbn [Z.sgn]; [rewrite Rmult_0_r; apply generic_format_0|rewrite Rmult_1_r; now apply dbl_format|].
    replace (val d * -1) with (- val d) by ring. apply generic_format_opp. now apply dbl_format. }
  rewrite VM in V1. set (y := val (fadd x0 (fmul d (fofZ (Z.sgn j))))) in *.
  pose proof (two_sum (val x) (- y)) as T.
  pose proof (rnd_err' (val x0 + val d * IZR (Z.sgn j))) as E1. rewrite <- V1 in E1. fold (val x - y) in T.
  set (w := val d * IZR (Z.sgn j)) in *.
  assert (Hw : Rabs w <= Rabs (val d)).
  { unfold w. rewrite Rabs_mult, <- abs_IZR. pose proof (Rabs_pos (val d)).
    destruct j; cbn; [rewrite Rmult_0_r; lra|lra|lra]. }
  pose proof uu_range as Hu. pose proof hh_range as Hh. assert (A1 : hh * hh <= hh) by nra.
  replace (val x - (val x0 + w)) with ((val x - y) + (y - (val x0 + w))) by ring.
  pose proof (Rabs_triang (val x - y) (y - (val x0 + w))) as B1.
  pose proof (Rabs_triang (val x0) w) as B3.
  assert (B4 : uu * Rabs (val x0 + w) <= uu * (Rabs (val x0) + Rabs (val d))) by (apply Rmult_le_compat_l; lra).
  lra.
Qed.

Lemma accepted64 n x0 x (a : analysis b64) : (0 <= n)%Z -> residual_is a -> in_balance (pow10neg n) x0 x a ->
  (forall k, In k (a_DOF1 a) -> balance64 n a k) /\ led64 n x0 x a.
Proof.
  intros Hn [Lg Hres] (gr & dj & xj & x0j & Hg & Hd & Hx & Hx0 & Hlt).
  cbn [fltb NumB64] in Hlt. rewrite sf_norm, sf_pow in Hlt.
  destruct (ftol_value n Hn) as [Ft _].
  assert (Dt : is_double (pow10neg n)) by (rewrite <- sf_pow; apply sf_ok).
  assert (DA : forall l : list b64, Forall is_double (map sf l)).
  { intros l. apply Forall_forall. intros y Hy. apply in_map_iff in Hy. destruct Hy as (z & <- & _). apply sf_ok. }
  pose proof (fin_norm _ _ Hlt) as HF. pose proof (norm_bound _ _ (DA _) Dt Ft Hlt) as HB.
  rewrite map_app in HF, HB. rewrite Forall_forall in HF. split.
  - intros k Hk. pose proof (gather_In _ _ _ k f0 Hg Hk) as Hin.
    assert (Hlen : (k < 3 * length (a_U a))%nat).
    { rewrite <- Lg. destruct (gather_nth _ _ _ Hg) as [_ G]. apply In_nth_error in Hk. destruct Hk as [i Hi]. now destruct (G i k Hi). }
    rewrite (Hres k Hlen) in Hin.
    set (r := nth k (vflat (a_r a)) f0) in *. set (c := nth k (concat (a_fconst a)) f0) in *. set (f := nth k (concat (a_forces a)) f0) in *.
    apply (in_map fopp), (in_map sf) in Hin. cbn [sf fopp fadd fmul NumB64] in Hin.
    assert (Hin' : In (fopp (fadd (fadd (fopp (sf r)) (sf c)) (fmul (sf (a_lpf a)) (sf f)))) (map sf (map fopp gr) ++ map sf [fsub xj (fadd x0j (fmul dj (fofZ (Z.sgn (a_j a)))))])).
    { apply in_or_app. now left. }
    pose proof (HF _ Hin') as F0. apply (proj1 (fin_opp _)) in F0.
    destruct (fin_add _ _ F0) as [F1 F2]. destruct (fin_add _ _ F1) as [F3 F4]. apply (proj1 (fin_opp _)) in F3. destruct (fin_mul _ _ F2) as [F5 F6].
    unfold balance64. fold r c f. cbv zeta. unfold fin64. do 4 (split; [assumption|]).
    pose proof (HB _ Hin') as B. rewrite val_opp, Rabs_Ropp in B.
    eapply digits_of; [exact Hn|exact B|].
    apply residual_sum; try apply sf_ok. exact F0.
  - assert (Hin' : In (fsub (sf xj) (fadd (sf x0j) (fmul (sf dj) (fofZ (Z.sgn (a_j a)))))) (map sf (map fopp gr) ++ map sf [fsub xj (fadd x0j (fmul dj (fofZ (Z.sgn (a_j a)))))])).
    { apply in_or_app. right. now left. }
    pose proof (HF _ Hin') as F0. destruct (fin_sub _ _ F0) as [F1 F2]. destruct (fin_add _ _ F2) as [F3 F4]. destruct (fin_mul _ _ F4) as [F5 _].
    exists dj, xj, x0j. do 6 (split; [assumption|]).
    eapply digits_of; [exact Hn|exact (HB _ Hin')|].
    apply control_sum; try apply sf_ok. exact F0.
Qed.
