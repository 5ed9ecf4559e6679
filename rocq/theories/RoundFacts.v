(** * Rounding of the operations on doubles

    The operations of Coq's SpecFloat agree with those of Flocq, whose error bounds
    are used here.  (Flocq proves the agreement in a file that also loads the
    primitive floats; it is repeated here without them.) *)
From Coq Require Import List ZArith Bool Arith Lia Reals Lra SpecFloat.
From Flocq Require Import Core BinarySingleNaN Relative.
Import ListNotations.
From Verif Require Import Num Double SpecDouble DoubleFacts SpecRound.
Local Open Scope R_scope.

Local Notation emin := (-1074)%Z.
Local Notation fe := (FLT_exp emin 53).
Local Notation rnd := (round radix2 fe ZnearestE).
Definition Hprec : FLX.Prec_gt_0 53 := eq_refl.
Definition Hmax : Prec_lt_emax 53 1024 := eq_refl.
#[local] Existing Instance Hprec.
#[local] Existing Instance Hmax.

Lemma val_SF2R x : val x = SF2R radix2 x.
Proof.
  destruct x as [s|s| |s m e]; try reflexivity. cbn [val SF2R]. unfold F2R. cbn [Fnum Fexp].
  rewrite bpow_powerRZ. destruct s; cbn [cond_Zopp]; change (IZR (radix_val radix2)) with 2.
  - change (Zneg m) with (Z.opp (Zpos m)). rewrite opp_IZR. ring.
  - ring.
Qed.

Lemma fin_SF x : finite x <-> is_finite_SF x = true.
Proof. destruct x; cbn; intuition congruence. Qed.

(** ** Agreement with Flocq *)
Lemma rne_equiv s m l : round_nearest_even m l = choice_mode mode_NE s m l.
Proof. case l; [reflexivity|intro c]. case c; [ | reflexivity..]. now simpl; unfold Round.cond_incr; case Z.even. Qed.

Lemma bra_equiv sx mx ex lx :
  SpecFloat.binary_round_aux 53 1024 sx mx ex lx = BinarySingleNaN.binary_round_aux 53 1024 mode_NE sx mx ex lx.
Proof.
  unfold SpecFloat.binary_round_aux, BinarySingleNaN.binary_round_aux.
  set (mrse' := shr_fexp _ _ _ _ _). case mrse'; intros mrs' e'; simpl. now rewrite (rne_equiv sx).
Qed.

Lemma br_equiv s m e : SpecFloat.binary_round 53 1024 s m e = BinarySingleNaN.binary_round 53 1024 mode_NE s m e.
Proof.
  unfold SpecFloat.binary_round, BinarySingleNaN.binary_round, shl_align_fexp.
  set (mez := shl_align _ _ _); case mez as [mz ez]. apply bra_equiv.
Qed.

Lemma bn_equiv m e z : SpecFloat.binary_normalize 53 1024 m e z = B2SF (BinarySingleNaN.binary_normalize 53 1024 Hprec Hmax mode_NE m e z).
Proof. case m as [ | p | p]; simpl; [reflexivity| |]; rewrite B2SF_SF2B; apply br_equiv. Qed.

(** ** Correct rounding, whenever the result is finite *)
Lemma over_inf s : binary_overflow 53 1024 mode_NE s = S754_infinity s.
Proof. now destruct s. Qed.

Lemma val_add (a b : double) : is_double a -> is_double b -> finite (fadd a b) ->
  is_double (fadd a b) /\ val (fadd a b) = rnd (val a + val b).
Proof.
  unfold is_double. intros Ha Hb Hf. cbn [fadd NumDouble] in *.
  set (A := SF2B a Ha : binary_float 53 1024). set (B := SF2B b Hb : binary_float 53 1024).
  assert (E : SFadd 53 1024 a b = B2SF (Bplus mode_NE A B)).
  { unfold A, B. destruct a as [sa|sa| |sa ma ea], b as [sb|sb| |sb mb eb]; try reflexivity;
      try (cbn; destruct (Bool.eqb sa sb); reflexivity).
    unfold Bplus. cbn [SF2B]. cbn [SFadd]. apply bn_equiv. }
  assert (EA : B2R A = val a) by (unfold A; rewrite B2R_SF2B, val_SF2R; reflexivity).
  assert (EB : B2R B = val b) by (unfold B; rewrite B2R_SF2B, val_SF2R; reflexivity).
  assert (FA : is_finite A = true) by (unfold A; rewrite is_finite_SF2B; apply fin_SF; apply (fin_add a b Hf)).
  assert (FB : is_finite B = true) by (unfold B; rewrite is_finite_SF2B; apply fin_SF; apply (fin_add a b Hf)).
  rewrite E in *. split; [apply valid_binary_B2SF|].
  pose proof (Bplus_correct 53 1024 Hprec Hmax mode_NE A B FA FB) as HC. rewrite EA, EB in HC.
  destruct (Rlt_bool _ _).
  - rewrite val_SF2R, SF2R_B2SF. apply HC.
  - destruct HC as [HC _]. rewrite HC, over_inf in Hf. destruct Hf.
Qed.

Lemma val_sub (a b : double) : is_double a -> is_double b -> finite (fsub a b) ->
  is_double (fsub a b) /\ val (fsub a b) = rnd (val a - val b).
Proof.
  unfold is_double. intros Ha Hb Hf. cbn [fsub NumDouble] in *.
  set (A := SF2B a Ha : binary_float 53 1024). set (B := SF2B b Hb : binary_float 53 1024).
  assert (E : SFsub 53 1024 a b = B2SF (Bminus mode_NE A B)).
  { unfold A, B. destruct a as [sa|sa| |sa ma ea], b as [sb|sb| |sb mb eb]; try reflexivity;
      try (cbn; destruct (Bool.eqb sa (negb sb)); reflexivity).
    unfold Bminus. cbn [SF2B]. cbn [SFsub]. unfold Zminus. rewrite <- cond_Zopp_negb. apply bn_equiv. }
  assert (EA : B2R A = val a) by (unfold A; rewrite B2R_SF2B, val_SF2R; reflexivity).
  assert (EB : B2R B = val b) by (unfold B; rewrite B2R_SF2B, val_SF2R; reflexivity).
  assert (FA : is_finite A = true) by (unfold A; rewrite is_finite_SF2B; apply fin_SF; apply (fin_sub a b Hf)).
  assert (FB : is_finite B = true) by (unfold B; rewrite is_finite_SF2B; apply fin_SF; apply (fin_sub a b Hf)).
  rewrite E in *. split; [apply valid_binary_B2SF|].
  pose proof (Bminus_correct 53 1024 Hprec Hmax mode_NE A B FA FB) as HC. rewrite EA, EB in HC.
  destruct (Rlt_bool _ _).
  - rewrite val_SF2R, SF2R_B2SF. apply HC.
  - destruct HC as [HC _]. rewrite HC, over_inf in Hf. destruct Hf.
Qed.

Lemma val_mul (a b : double) : is_double a -> is_double b -> finite (fmul a b) ->
  is_double (fmul a b) /\ val (fmul a b) = rnd (val a * val b).
Proof.
  unfold is_double. intros Ha Hb Hf. cbn [fmul NumDouble] in *.
  set (A := SF2B a Ha : binary_float 53 1024). set (B := SF2B b Hb : binary_float 53 1024).
  assert (E : SFmul 53 1024 a b = B2SF (Bmult mode_NE A B)).
  { unfold A, B. destruct a as [sa|sa| |sa ma ea], b as [sb|sb| |sb mb eb]; try reflexivity.
    unfold Bmult. cbn [SF2B]. cbn [SFmul]. rewrite B2SF_SF2B. apply bra_equiv. }
  assert (EA : B2R A = val a) by (unfold A; rewrite B2R_SF2B, val_SF2R; reflexivity).
  assert (EB : B2R B = val b) by (unfold B; rewrite B2R_SF2B, val_SF2R; reflexivity).
  rewrite E in *. split; [apply valid_binary_B2SF|].
  pose proof (Bmult_correct 53 1024 Hprec Hmax mode_NE A B) as HC. rewrite EA, EB in HC.
  destruct (Rlt_bool _ _).
  - rewrite val_SF2R, SF2R_B2SF. apply HC.
  - rewrite HC, over_inf in Hf. destruct Hf.
Qed.

Lemma div_equiv (a b : double) (Ha : is_double a) (Hb : is_double b) :
  fdiv a b = B2SF (Bdiv mode_NE (SF2B a Ha : binary_float 53 1024) (SF2B b Hb : binary_float 53 1024)).
Proof.
  unfold is_double in *. cbn [fdiv NumDouble]. destruct a as [sa|sa| |sa ma ea], b as [sb|sb| |sb mb eb]; try reflexivity.
  unfold Bdiv. cbn [SF2B]. cbn [SFdiv]. rewrite B2SF_SF2B.
  set (melz := SFdiv_core_binary _ _ _ _ _ _). case melz as [[mz ez] lz]. apply bra_equiv.
Qed.

Lemma val_div (a b : double) : is_double a -> is_double b -> finite b -> val b <> 0 -> finite (fdiv a b) ->
  is_double (fdiv a b) /\ val (fdiv a b) = rnd (val a / val b).
Proof.
  unfold is_double. intros Ha Hb Hfb Hb0 Hf. cbn [fdiv NumDouble] in *.
  set (A := SF2B a Ha : binary_float 53 1024). set (B := SF2B b Hb : binary_float 53 1024).
  pose proof (div_equiv a b Ha Hb) as E. fold A B in E. cbn [fdiv NumDouble] in E.
  assert (EA : B2R A = val a) by (unfold A; rewrite B2R_SF2B, val_SF2R; reflexivity).
  assert (EB : B2R B = val b) by (unfold B; rewrite B2R_SF2B, val_SF2R; reflexivity).
  rewrite E in *. split; [apply valid_binary_B2SF|].
  pose proof (Bdiv_correct 53 1024 Hprec Hmax mode_NE A B) as HC. rewrite EA, EB in HC. specialize (HC Hb0).
  destruct (Rlt_bool _ _).
  - rewrite val_SF2R, SF2R_B2SF. apply HC.
  - rewrite HC, over_inf in Hf. destruct Hf.
Qed.

Lemma val_sqrt (a : double) : is_double a -> finite (fsqrt a) ->
  is_double (fsqrt a) /\ val (fsqrt a) = rnd (sqrt (val a)).
Proof.
  unfold is_double. intros Ha Hf. cbn [fsqrt NumDouble] in *.
  set (A := SF2B a Ha : binary_float 53 1024).
  assert (E : SFsqrt 53 1024 a = B2SF (Bsqrt mode_NE A)).
  { unfold A. destruct a as [sa|[]| |[] ma ea]; try reflexivity.
    unfold Bsqrt. cbn [SF2B]. cbn [SFsqrt]. rewrite B2SF_SF2B.
    set (melz := SFsqrt_core_binary _ _ _ _). case melz as [[mz ez] lz]. apply bra_equiv. }
  assert (EA : B2R A = val a) by (unfold A; rewrite B2R_SF2B, val_SF2R; reflexivity).
  rewrite E. split; [apply valid_binary_B2SF|].
  pose proof (Bsqrt_correct 53 1024 Hprec Hmax mode_NE A) as HC. rewrite EA in HC.
  rewrite val_SF2R, SF2R_B2SF. apply HC.
Qed.

Lemma val_opp (a : double) : val (fopp a) = - val a.
Proof. destruct a as [s|s| |s m e]; cbn; try ring. destruct s; cbn; ring. Qed.
Lemma dbl_opp (a : double) : is_double a -> is_double (fopp a).
Proof. destruct a as [s|s| |s m e]; cbn; auto. Qed.

Lemma dbl_ofZ z : is_double (fofZ z).
Proof. unfold is_double. cbn [fofZ NumDouble]. unfold d_ofZ. rewrite bn_equiv. apply valid_binary_B2SF. Qed.

Lemma val_lt (a b : double) : is_double a -> is_double b -> finite a -> finite b -> fltb a b = true -> val a < val b.
Proof.
  unfold is_double. intros Ha Hb Fa Fb H. cbn [fltb NumDouble] in H.
  set (A := SF2B a Ha : binary_float 53 1024). set (B := SF2B b Hb : binary_float 53 1024).
  assert (EA : B2R A = val a) by (unfold A; rewrite B2R_SF2B, val_SF2R; reflexivity).
  assert (EB : B2R B = val b) by (unfold B; rewrite B2R_SF2B, val_SF2R; reflexivity).
  assert (E : SFltb a b = Bltb A B) by (unfold Bltb, A, B; now rewrite !B2SF_SF2B).
  rewrite E, Bltb_correct in H.
  - apply Rlt_bool_true_iff in H || (revert H; case Rlt_bool_spec; [intros H' _|discriminate]). rewrite <- EA, <- EB. assumption.
  - unfold A. rewrite is_finite_SF2B. now apply fin_SF.
  - unfold B. rewrite is_finite_SF2B. now apply fin_SF.
Qed.

(** ** Error bounds *)
Lemma rnd_err x : Rabs (rnd x - x) <= bpow radix2 (-53) * Rabs x + bpow radix2 (-1075).
Proof.
  destruct (error_N_FLT radix2 emin 53 eq_refl (fun n => negb (Z.even n)) x) as (e & t & He & Ht & _ & E).
  rewrite E. replace (x * (1 + e) + t - x) with (e * x + t) by ring.
  eapply Rle_trans; [apply Rabs_triang|]. rewrite Rabs_mult.
  apply Rplus_le_compat.
  - apply Rmult_le_compat_r; [apply Rabs_pos|]. eapply Rle_trans; [exact He|].
    change (u_ro radix2 53) with (/ 2 * bpow radix2 (-53 + 1)). change (/2) with (bpow radix2 (-1)). rewrite <- bpow_plus. apply Rle_refl.
  - eapply Rle_trans; [exact Ht|]. change (/2) with (bpow radix2 (-1)). rewrite <- bpow_plus. apply Rle_refl.
Qed.

Lemma dbl_format (a : double) : is_double a -> generic_format radix2 fe (val a).
Proof.
  unfold is_double. intros Ha. set (A := SF2B a Ha : binary_float 53 1024).
  assert (EA : B2R A = val a) by (unfold A; rewrite B2R_SF2B, val_SF2R; reflexivity).
  rewrite <- EA. apply (generic_format_B2R 53 1024).
Qed.

Lemma rnd_format x : generic_format radix2 fe (rnd x).
Proof. apply generic_format_round; typeclasses eauto. Qed.
Lemma rnd_ge x y : generic_format radix2 fe x -> x <= y -> x <= rnd y.
Proof. intros. apply round_ge_generic; [typeclasses eauto|typeclasses eauto|assumption|assumption]. Qed.
Lemma rnd_ge0 x : 0 <= x -> 0 <= rnd x.
Proof. intros. apply rnd_ge; [apply generic_format_0|assumption]. Qed.

Lemma dot_bound : forall l : list double, Forall is_double l -> finite (fdot l l) ->
  is_double (fdot l l) /\ 0 <= val (fdot l l) /\ forall v, In v l -> rnd (val v * val v) <= val (fdot l l).
Proof.
  induction l as [|x l IH]; intros HD HF.
  { cbn. split; [reflexivity|]. split; [apply Rle_refl|]. intros v []. }
  cbn [fdot] in *. inversion HD as [|? ? Hx Hl]; subst. destruct (fin_add _ _ HF) as [F1 F2].
  destruct (val_mul x x Hx Hx F1) as [D1 V1]. destruct (IH Hl F2) as (D2 & P2 & B2).
  destruct (val_add _ _ D1 D2 HF) as [D3 V3]. split; [exact D3|]. rewrite V3, V1.
  assert (P1 : 0 <= rnd (val x * val x)) by (apply rnd_ge0, Rle_0_sqr).
  split; [apply rnd_ge0; lra|]. intros v [<-|Hv].
  - apply rnd_ge; [apply rnd_format|lra].
  - eapply Rle_trans; [apply B2, Hv|]. apply rnd_ge; [now apply dbl_format|lra].
Qed.

(** Constants of the bounds *)
Definition uu : R := powerRZ 2 (-53).
Definition hh : R := powerRZ 2 (-537).
Lemma uu_b : bpow radix2 (-53) = uu.  Proof. unfold uu. rewrite bpow_powerRZ. reflexivity. Qed.
Lemma hh_b : bpow radix2 (-537) = hh.  Proof. unfold hh. rewrite bpow_powerRZ. reflexivity. Qed.
Lemma uu_range : 0 < uu < / 1024.
Proof.
  rewrite <- uu_b. split; [apply bpow_gt_0|]. change (/ 1024) with (bpow radix2 (-10)). apply bpow_lt. lia.
Qed.
Lemma hh_range : 0 < hh < / 1024.
Proof.
  rewrite <- hh_b. split; [apply bpow_gt_0|]. change (/ 1024) with (bpow radix2 (-10)). apply bpow_lt. lia.
Qed.
Lemma ee_hh : bpow radix2 (-1075) <= hh * hh.
Proof. rewrite <- hh_b, <- bpow_plus. apply bpow_le. lia. Qed.

Lemma rnd_err' x : Rabs (rnd x - x) <= uu * Rabs x + hh * hh.
Proof. pose proof (rnd_err x) as H. rewrite uu_b in H. pose proof ee_hh. lra. Qed.

Lemma norm_bound (l : list double) t : Forall is_double l -> is_double t -> finite t -> fltb (fnorm l) t = true ->
  forall v, In v l -> Rabs (val v) <= (1 + 8 * uu) * val t + 4 * hh.
Proof.
  intros HD Ht Ft Hn v Hv. unfold fnorm in Hn.
  pose proof (fin_sqrt_lt _ _ Hn) as Fs. pose proof (fin_sqrt _ Fs) as Fd.
  destruct (dot_bound l HD Fd) as (D1 & P1 & B1). specialize (B1 v Hv).
  destruct (val_sqrt _ D1 Fs) as [D2 V2]. pose proof (val_lt _ _ D2 Ht Fs Ft Hn) as Hlt. rewrite V2 in Hlt.
  set (D := val (fdot l l)) in *. set (s := sqrt D) in *. set (g := val v) in *.
  assert (Hs : 0 <= s) by apply sqrt_pos. assert (Es : s * s = D) by (apply sqrt_sqrt; exact P1).
  pose proof (rnd_err' s) as E1. rewrite (Rabs_pos_eq s Hs) in E1.
  pose proof (rnd_err' (g * g)) as E2. rewrite (Rabs_pos_eq (g * g)) in E2 by apply Rle_0_sqr.
  pose proof uu_range as Hu. pose proof hh_range as Hh. generalize dependent uu. generalize dependent hh. intros h Hh u.
  intros E1 E2 Hu.
  assert (A1 : s * (1 - u) <= val t + h * h).
  { revert E1. unfold Rabs. destruct (Rcase_abs _); lra. }
  assert (A2 : g * g * (1 - u) <= D + h * h).
  { revert E2. unfold Rabs. destruct (Rcase_abs _); lra. }
  assert (A3 : s <= (val t + h * h) * (1 + 2 * u)).
  { assert (0 <= val t + h * h) by nra. assert (1 <= (1 - u) * (1 + 2 * u)) by nra. nra. }
  assert (A4 : Rabs g <= (s + h) * (1 + 2 * u)).
  { apply Rsqr_incr_0_var; [|nra]. rewrite <- Rsqr_abs. unfold Rsqr.
    assert (B : g * g * (1 - u) <= (s + h) * (s + h)) by nra.
    assert (C : 1 <= (1 - u) * ((1 + 2 * u) * (1 + 2 * u))) by nra.
    assert (0 <= g * g) by nra.
    apply Rle_trans with (g * g * ((1 - u) * ((1 + 2 * u) * (1 + 2 * u)))); [nra|].
    replace ((s + h) * (1 + 2 * u) * ((s + h) * (1 + 2 * u))) with ((s + h) * (s + h) * ((1 + 2 * u) * (1 + 2 * u))) by ring.
    rewrite <- Rmult_assoc. apply Rmult_le_compat_r; [nra|exact B]. }
  eapply Rle_trans; [exact A4|].
  apply Rle_trans with (((val t + h * h) * (1 + 2 * u) + h) * (1 + 2 * u)).
  { apply Rmult_le_compat_r; lra. }
  assert (T0 : 0 <= val t + h * h) by nra.
  assert (U2 : (1 + 2 * u) * (1 + 2 * u) <= 1 + 5 * u) by nra.
  assert (h * h <= h / 1024) by nra.
  replace (((val t + h * h) * (1 + 2 * u) + h) * (1 + 2 * u)) with ((val t + h * h) * ((1 + 2 * u) * (1 + 2 * u)) + h * (1 + 2 * u)) by ring.
  apply Rle_trans with ((val t + h * h) * (1 + 5 * u) + h * (1 + 2 * u)).
  { apply Rplus_le_compat_r, Rmult_le_compat_l; assumption. }
  nra.
Qed.

(** ** The operations keep to doubles *)
Lemma dbl_add (a b : double) : is_double a -> is_double b -> is_double (fadd a b).
Proof.
  intros Ha Hb. assert (F : finite (fadd a b) \/ ~ finite (fadd a b)) by (destruct (fadd a b); cbn; tauto).
  destruct F as [F|F]; [now apply val_add|]. destruct (fadd a b); try reflexivity. destruct (F I).
Qed.
Lemma dbl_sub (a b : double) : is_double a -> is_double b -> is_double (fsub a b).
Proof.
  intros Ha Hb. assert (F : finite (fsub a b) \/ ~ finite (fsub a b)) by (destruct (fsub a b); cbn; tauto).
  destruct F as [F|F]; [now apply val_sub|]. destruct (fsub a b); try reflexivity. destruct (F I).
Qed.
Lemma dbl_mul (a b : double) : is_double a -> is_double b -> is_double (fmul a b).
Proof.
  intros Ha Hb. assert (F : finite (fmul a b) \/ ~ finite (fmul a b)) by (destruct (fmul a b); cbn; tauto).
  destruct F as [F|F]; [now apply val_mul|]. destruct (fmul a b); try reflexivity. destruct (F I).
Qed.
Lemma dbl_div (a b : double) : is_double a -> is_double b -> is_double (fdiv a b).
Proof. intros Ha Hb. rewrite (div_equiv a b Ha Hb). apply valid_binary_B2SF. Qed.
Lemma dbl_sqrt (a : double) : is_double a -> is_double (fsqrt a).
Proof.
  intros Ha. assert (F : finite (fsqrt a) \/ ~ finite (fsqrt a)) by (destruct (fsqrt a); cbn; tauto).
  destruct F as [F|F]; [now apply val_sqrt|]. destruct (fsqrt a); try reflexivity. destruct (F I).
Qed.
Lemma dbl_abs (a : double) : is_double a -> is_double (fabs a).
Proof. destruct a as [s|s| |s m e]; cbn; auto. Qed.
Lemma dbl_trunc (a : double) : is_double a -> is_double (ftrunc a).
Proof.
  destruct a as [s|s| |s m e]; cbn [ftrunc NumDouble d_trunc]; auto. destruct (0 <=? e)%Z; auto.
  intros _. apply dbl_ofZ.
Qed.
