(** * The plastic law in double precision *)
From Coq Require Import List ZArith Bool Arith Lia Reals Lra SpecFloat.
From Flocq Require Import Core BinarySingleNaN Relative Plus_error.
Import ListNotations.
From Verif Require Import Num Vec Material ListFacts RecFacts Double SpecDouble DoubleFacts SpecRound RoundFacts Binary64 SpecBalance64 Balance64Facts
  Node64Facts SpecPlast64.
Local Open Scope R_scope.
#[local] Existing Instance Hprec.
#[local] Existing Instance Hmax.
Local Notation fe := (FLT_exp (-1074) 53).
Local Notation rnd := (round radix2 fe ZnearestE).
Local Notation fmt := (generic_format radix2 fe).
Local Notation w := (hh * hh).

Lemma plus_err x y : fmt x -> fmt y -> Rabs (rnd (x + y) - (x + y)) <= uu * Rabs (x + y).
Proof.
  intros Hx Hy. destruct (FLT_plus_error_N_ex radix2 (-1074) 53 (fun z => negb (Z.even z)) x y Hx Hy) as (eps & H1 & H2).
  assert (EU : u_ro radix2 53 = uu) by (unfold u_ro; rewrite <- uu_b; change (/2) with (bpow radix2 (-1)); rewrite <- bpow_plus; reflexivity).
  rewrite EU in H1. pose proof uu_range as Hu. rewrite H2.
  replace ((x + y) * (1 + eps) - (x + y)) with (eps * (x + y)) by ring. rewrite Rabs_mult.
  apply Rmult_le_compat_r; [apply Rabs_pos|]. eapply Rle_trans; [exact H1|].
  apply Rmult_le_reg_r with (1 + uu); [lra|]. unfold Rdiv. rewrite Rmult_assoc, Rinv_l by lra. nra.
Qed.
Lemma minus_err x y : fmt x -> fmt y -> Rabs (rnd (x - y) - (x - y)) <= uu * Rabs (x - y).
Proof. intros Hx Hy. apply plus_err; [exact Hx|]. now apply generic_format_opp. Qed.

Lemma rnd_id x : fmt x -> rnd x = x.  Proof. intros. now apply round_generic; [typeclasses eauto|]. Qed.
Lemma rnd_mono x y : x <= y -> rnd x <= rnd y.  Proof. apply round_le; typeclasses eauto. Qed.
Lemma rnd_0 : rnd 0 = 0.  Proof. apply round_0. typeclasses eauto. Qed.
Lemma fmt_rnd x : fmt (rnd x).  Proof. apply rnd_format. Qed.
Lemma fmt_0 : fmt 0.  Proof. apply generic_format_0. Qed.

(** ** Plastic corrector in real numbers with rounded operations *)
Section Corrector.
  Variables (E K T Y : R).
  Hypothesis HE : 0 < E.  Hypothesis HK : 0 <= K.  Hypothesis HY : 0 < Y.
  Hypothesis FE : fmt E.  Hypothesis FK : fmt K.  Hypothesis FT : fmt T.  Hypothesis FY : fmt Y.
  Let f := rnd (T - Y).
  Hypothesis Hf : 0 < f.
  Let M := rnd (E + K).
  Let d := rnd (f / M).
  Let g := rnd (d * E).
  Let r := rnd (g / T).
  Let v := rnd (1 - r).
  Let k := rnd (K * d).
  Let y := rnd (Y + k).

  Lemma corr_T : 0 < T - Y.
  Proof. destruct (Rle_or_lt (T - Y) 0) as [H|H]; [|exact H]. apply rnd_mono in H. rewrite rnd_0 in H. fold f in H. lra. Qed.
  Lemma corr_f : f <= T.
  Proof. unfold f. rewrite <- (rnd_id T FT) at 2. apply rnd_mono. lra. Qed.
  Lemma corr_M : E <= M /\ K <= M.
  Proof. unfold M. split; apply rnd_ge; auto; lra. Qed.
  Lemma corr_d : 0 <= d.
  Proof. unfold d. apply rnd_ge0. pose proof corr_M. apply Rmult_le_pos; [lra|]. left. apply Rinv_0_lt_compat. lra. Qed.

  (** Size of the plastic increment. *)
  Lemma corr_sum : Rabs (d * (E + K) - (T - Y)) <= 6 * uu * T + 2 * w * (E + K) /\ d * (E + K) <= 2 * T + 2 * w * (E + K).
  Proof.
    pose proof uu_range as Hu. pose proof hh_range as Hh. assert (w0 : 0 <= w) by nra.
    pose proof corr_T as HT. pose proof corr_f as Hf1. pose proof corr_M as [HM1 HM2]. pose proof corr_d as Hd.
    pose proof (minus_err T Y FT FY) as E1. fold f in E1. rewrite (Rabs_pos_eq (T - Y)) in E1 by lra.
    pose proof (rnd_err' (f / M)) as E2. fold d in E2. rewrite (Rabs_pos_eq (f / M)) in E2.
    2: { apply Rmult_le_pos; [lra|]. left. apply Rinv_0_lt_compat. lra. }
    pose proof (plus_err E K FE FK) as E3. fold M in E3. rewrite (Rabs_pos_eq (E + K)) in E3 by lra.
    set (S := E + K) in *. assert (S0 : 0 < S) by (unfold S; lra). assert (M0 : 0 < M) by lra.
    assert (E2' : Rabs (d * M - f) <= uu * f + w * M).
    { replace (d * M - f) with ((d - f / M) * M) by (field; lra). rewrite Rabs_mult, (Rabs_pos_eq M) by lra.
      replace (uu * f + w * M) with ((uu * (f / M) + w) * M) by (field; lra). apply Rmult_le_compat_r; lra. }
    assert (HM3 : M <= (1 + uu) * S) by (apply Rabs_le_inv in E3; lra).
    assert (HM4 : (1 - uu) * S <= M) by (apply Rabs_le_inv in E3; lra).
    assert (wM : w * M <= w * ((1 + uu) * S)) by (apply Rmult_le_compat_l; assumption).
    assert (wS : 0 <= w * S) by (apply Rmult_le_pos; lra).
    assert (wu : uu * (w * S) <= / 1024 * (w * S)) by (apply Rmult_le_compat_r; lra).
    assert (uf : uu * f <= uu * T) by (apply Rmult_le_compat_l; lra).
    assert (uT : uu * T <= / 1024 * T) by (apply Rmult_le_compat_r; lra).
    assert (DM : d * M <= T + uu * T + w * M) by (apply Rabs_le_inv in E2'; lra).
    assert (D0 : 0 <= d * S) by (apply Rmult_le_pos; lra).
    assert (DS : d * ((1 - uu) * S) <= d * M) by (apply Rmult_le_compat_l; lra).
    assert (DS' : d * S <= 3 / 2 * T + 3 / 2 * (w * S)).
    { replace (d * ((1 - uu) * S)) with (d * S - uu * (d * S)) in DS by ring.
      assert (uu * (d * S) <= / 1024 * (d * S)) by (apply Rmult_le_compat_r; lra). lra. }
    split; [|lra].
    assert (DD : Rabs (d * S - d * M) <= uu * (d * S)).
    { replace (d * S - d * M) with (d * (S - M)) by ring. rewrite Rabs_mult, (Rabs_pos_eq d) by lra.
      replace (uu * (d * S)) with (d * (uu * S)) by ring. apply Rmult_le_compat_l; [lra|]. rewrite Rabs_minus_sym. exact E3. }
    assert (uD : uu * (d * S) <= uu * (3 / 2 * T + 3 / 2 * (w * S))) by (apply Rmult_le_compat_l; lra).
    replace (d * S - (T - Y)) with ((d * S - d * M) + ((d * M - f) + (f - (T - Y)))) by ring.
    eapply Rle_trans; [apply Rabs_triang|]. pose proof (Rabs_triang (d * M - f) (f - (T - Y))) as TR.
    assert (uTY : uu * (T - Y) <= uu * T) by (apply Rmult_le_compat_l; lra).
    assert (0 <= uu * T) by (apply Rmult_le_pos; lra). lra.
  Qed.

  Notation tiny := (w * (1 + E + K + T)).
  Lemma corr_v : Rabs (v * T - (T - d * E)) <= 16 * uu * T + 8 * tiny.
  Proof.
    pose proof uu_range as Hu. pose proof hh_range as Hh. assert (w0 : 0 <= w) by nra.
    pose proof corr_T as HT. pose proof corr_d as Hd. destruct corr_sum as [_ DS].
    assert (wE : 0 <= w * E) by (apply Rmult_le_pos; lra). assert (wK : 0 <= w * K) by (apply Rmult_le_pos; lra).
    assert (wT : 0 <= w * T) by (apply Rmult_le_pos; lra).
    assert (D0 : 0 <= d * E) by (apply Rmult_le_pos; lra). assert (D1 : 0 <= d * K) by (apply Rmult_le_pos; lra).
    assert (uT : 0 <= uu * T) by (apply Rmult_le_pos; lra).
    assert (sm : forall z, 0 <= z -> 0 <= uu * z <= / 1024 * z) by (intros z Hz; split; [apply Rmult_le_pos; lra|apply Rmult_le_compat_r; lra]).
    pose proof (sm _ D0) as uD. pose proof (sm _ wE) as uwE. pose proof (sm _ wK) as uwK. pose proof (sm _ wT) as uwT. pose proof (sm _ w0) as uw.
    pose proof (sm T ltac:(lra)) as uT'. pose proof (sm _ (proj1 (sm T ltac:(lra)))) as uuT.
    (* g *)
    pose proof (rnd_err' (d * E)) as G. fold g in G. rewrite (Rabs_pos_eq (d * E)) in G by lra.
    assert (DE : d * E <= 2 * T + 2 * (w * E) + 2 * (w * K)) by lra.
    assert (uDE : uu * (d * E) <= uu * (2 * T + 2 * (w * E) + 2 * (w * K))) by (apply Rmult_le_compat_l; lra).
    assert (g0 : 0 <= g) by (apply rnd_ge0; lra).
    assert (g1 : g <= 3 * T + 3 * (w * E) + 3 * (w * K) + w) by (apply Rabs_le_inv in G; lra).
    (* r *)
    assert (q0 : 0 <= g / T) by (apply Rmult_le_pos; [lra|]; left; apply Rinv_0_lt_compat; lra).
    pose proof (rnd_err' (g / T)) as R1. fold r in R1. rewrite (Rabs_pos_eq (g / T)) in R1 by exact q0.
    assert (r0 : 0 <= r) by (apply rnd_ge0; exact q0).
    assert (R2 : Rabs (r * T - g) <= uu * g + w * T).
    { replace (r * T - g) with ((r - g / T) * T) by (field; lra). rewrite Rabs_mult, (Rabs_pos_eq T) by lra.
      replace (uu * g + w * T) with ((uu * (g / T) + w) * T) by (field; lra). apply Rmult_le_compat_r; lra. }
    assert (ug : uu * g <= uu * (3 * T + 3 * (w * E) + 3 * (w * K) + w)) by (apply Rmult_le_compat_l; lra).
    assert (rT0 : 0 <= r * T) by (apply Rmult_le_pos; lra).
    assert (rT : r * T <= 4 * T + 4 * (w * E) + 4 * (w * K) + 2 * w + w * T) by (apply Rabs_le_inv in R2; lra).
    (* v *)
    pose proof (minus_err 1 r rnd_one (fmt_rnd _)) as V1. fold v in V1.
    assert (V2 : Rabs (v * T - (T - r * T)) <= uu * (T + r * T)).
    { replace (v * T - (T - r * T)) with ((v - (1 - r)) * T) by ring. rewrite Rabs_mult, (Rabs_pos_eq T) by lra.
      replace (uu * (T + r * T)) with (uu * (1 + r) * T) by ring. apply Rmult_le_compat_r; [lra|].
      eapply Rle_trans; [exact V1|]. apply Rmult_le_compat_l; [lra|]. apply Rabs_le. lra. }
    assert (urT : uu * (T + r * T) <= uu * (5 * T + 4 * (w * E) + 4 * (w * K) + 2 * w + w * T)) by (apply Rmult_le_compat_l; lra).
    replace (v * T - (T - d * E)) with ((v * T - (T - r * T)) + (- (r * T - g) + - (g - d * E))) by ring.
    eapply Rle_trans; [apply Rabs_triang|]. pose proof (Rabs_triang (- (r * T - g)) (- (g - d * E))) as TR. rewrite !Rabs_Ropp in TR. lra.
  Qed.

  Lemma corr_y : Y <= y /\ Rabs (y - (Y + K * d)) <= 8 * uu * T + 4 * tiny.
  Proof.
    pose proof uu_range as Hu. pose proof hh_range as Hh. assert (w0 : 0 <= w) by nra.
    pose proof corr_T as HT. pose proof corr_d as Hd. destruct corr_sum as [_ DS].
    assert (wE : 0 <= w * E) by (apply Rmult_le_pos; lra). assert (wK : 0 <= w * K) by (apply Rmult_le_pos; lra).
    assert (wT : 0 <= w * T) by (apply Rmult_le_pos; lra).
    assert (D0 : 0 <= d * E) by (apply Rmult_le_pos; lra). assert (D1 : 0 <= K * d) by (apply Rmult_le_pos; lra).
    assert (uT : 0 <= uu * T) by (apply Rmult_le_pos; lra).
    assert (sm : forall z, 0 <= z -> 0 <= uu * z <= / 1024 * z) by (intros z Hz; split; [apply Rmult_le_pos; lra|apply Rmult_le_compat_r; lra]).
    pose proof (sm _ D0) as uD. pose proof (sm _ wE) as uwE. pose proof (sm _ wK) as uwK. pose proof (sm _ wT) as uwT. pose proof (sm _ w0) as uw.
    pose proof (rnd_err' (K * d)) as G. fold k in G. rewrite (Rabs_pos_eq (K * d)) in G by lra.
    assert (k0 : 0 <= k) by (apply rnd_ge0; lra).
    split; [unfold y; apply rnd_ge; [exact FY|lra]|].
    assert (DE : K * d <= 2 * T + 2 * (w * E) + 2 * (w * K)) by lra.
    assert (uDE : uu * (K * d) <= uu * (2 * T + 2 * (w * E) + 2 * (w * K))) by (apply Rmult_le_compat_l; lra).
    pose proof (sm _ D1) as uD1. assert (k1 : k <= 3 * T + 3 * (w * E) + 3 * (w * K) + w) by (apply Rabs_le_inv in G; lra).
    pose proof (plus_err Y k FY (fmt_rnd _)) as P. fold y in P. rewrite (Rabs_pos_eq (Y + k)) in P by lra.
    assert (uYk : uu * (Y + k) <= uu * (4 * T + 3 * (w * E) + 3 * (w * K) + w)) by (apply Rmult_le_compat_l; lra).
    replace (y - (Y + K * d)) with ((y - (Y + k)) + (k - K * d)) by ring.
    eapply Rle_trans; [apply Rabs_triang|]. lra.
  Qed.

  (** Stress. *)
  Lemma corr_s sg : Rabs sg = T -> let s := rnd (v * sg) in
    Rabs s <= y + 40 * uu * T + 32 * tiny /\
    Rabs (s - (sg - (if Rle_dec 0 sg then 1 else -1) * (d * E))) <= 20 * uu * T + 16 * tiny.
  Proof.
    intros Hsg s. pose proof uu_range as Hu. pose proof hh_range as Hh. assert (w0 : 0 <= w) by nra.
    pose proof corr_T as HT. pose proof corr_d as Hd. destruct corr_sum as [DA DS]. pose proof corr_v as V. destruct corr_y as [_ Yy].
    assert (wE : 0 <= w * E) by (apply Rmult_le_pos; lra). assert (wK : 0 <= w * K) by (apply Rmult_le_pos; lra).
    assert (wT : 0 <= w * T) by (apply Rmult_le_pos; lra).
    assert (D0 : 0 <= d * E) by (apply Rmult_le_pos; lra). assert (D1 : 0 <= d * K) by (apply Rmult_le_pos; lra).
    assert (uT : 0 <= uu * T) by (apply Rmult_le_pos; lra).
    assert (sm : forall z, 0 <= z -> 0 <= uu * z <= / 1024 * z) by (intros z Hz; split; [apply Rmult_le_pos; lra|apply Rmult_le_compat_r; lra]).
    pose proof (sm _ wE) as uwE. pose proof (sm _ wK) as uwK. pose proof (sm _ wT) as uwT. pose proof (sm _ w0) as uw.
    pose proof (sm _ uT) as uuT. pose proof (sm T ltac:(lra)) as uT'.
    pose proof (rnd_err' (v * sg)) as S1. fold s in S1. rewrite Rabs_mult, Hsg in S1.
    assert (VT : Rabs v * T = Rabs (v * T)) by (rewrite Rabs_mult, (Rabs_pos_eq T) by lra; reflexivity).
    assert (B1 : Rabs (T - d * E) <= T + d * E) by (apply Rabs_le; lra).
    assert (B2 : Rabs (v * T) <= T + d * E + 16 * uu * T + 8 * tiny).
    { replace (v * T) with ((v * T - (T - d * E)) + (T - d * E)) by ring. eapply Rle_trans; [apply Rabs_triang|]. lra. }
    assert (B3 : uu * (Rabs v * T) <= uu * (4 * T + 11 * tiny)) by (rewrite VT; apply Rmult_le_compat_l; lra).
    assert (S2 : Rabs (s - v * sg) <= 4 * uu * T + 2 * tiny) by lra.
    split.
    - assert (B4 : Rabs s <= Rabs (v * T) + 4 * uu * T + 2 * tiny).
      { replace s with ((s - v * sg) + v * sg) by ring. eapply Rle_trans; [apply Rabs_triang|].
        rewrite (Rabs_mult v sg), Hsg, VT. lra. }
      assert (B5 : Rabs (v * T) <= Rabs (T - d * E) + 16 * uu * T + 8 * tiny).
      { replace (v * T) with ((v * T - (T - d * E)) + (T - d * E)) at 1 by ring. eapply Rle_trans; [apply Rabs_triang|]. lra. }
      assert (B6 : Rabs (T - d * E) <= Y + K * d + 6 * uu * T + 2 * (w * E) + 2 * (w * K)).
      { apply Rabs_le_inv in DA. apply Rabs_le. lra. }
      apply Rabs_le_inv in Yy. lra.
    - assert (Q : v * sg - (sg - (if Rle_dec 0 sg then 1 else -1) * (d * E)) = (if Rle_dec 0 sg then 1 else -1) * (v * T - (T - d * E))).
      { destruct (Rle_dec 0 sg) as [P|P]; [rewrite (Rabs_pos_eq sg) in Hsg by lra|rewrite (Rabs_left sg) in Hsg by lra]; rewrite <- Hsg; ring. }
      replace (s - _) with ((s - v * sg) + (v * sg - (sg - (if Rle_dec 0 sg then 1 else -1) * (d * E)))) by ring.
      rewrite Q. eapply Rle_trans; [apply Rabs_triang|]. rewrite Rabs_mult.
      replace (Rabs (if Rle_dec 0 sg then 1 else -1)) with 1 by (destruct (Rle_dec 0 sg); [rewrite Rabs_pos_eq|rewrite Rabs_left]; lra). lra.
  Qed.
End Corrector.

(** ** Comparisons and finiteness *)
Lemma val_leb (a b : double) : is_double a -> is_double b -> finite a -> finite b -> fleb a b = Rle_bool (val a) (val b).
Proof.
  unfold is_double. intros Ha Hb Fa Fb. cbn [fleb NumDouble].
  set (A := SF2B a Ha : binary_float 53 1024). set (B := SF2B b Hb : binary_float 53 1024).
  assert (EA : B2R A = val a) by (unfold A; rewrite B2R_SF2B, val_SF2R; reflexivity).
  assert (EB : B2R B = val b) by (unfold B; rewrite B2R_SF2B, val_SF2R; reflexivity).
  assert (E : SFleb a b = Bleb A B) by (unfold Bleb, A, B; now rewrite !B2SF_SF2B).
  rewrite E, Bleb_correct, EA, EB; [reflexivity| |].
  - unfold A. rewrite is_finite_SF2B. now apply fin_SF.
  - unfold B. rewrite is_finite_SF2B. now apply fin_SF.
Qed.
Lemma val_ltb (a b : double) : is_double a -> is_double b -> finite a -> finite b -> fltb a b = Rlt_bool (val a) (val b).
Proof.
  unfold is_double. intros Ha Hb Fa Fb. cbn [fltb NumDouble].
  set (A := SF2B a Ha : binary_float 53 1024). set (B := SF2B b Hb : binary_float 53 1024).
  assert (EA : B2R A = val a) by (unfold A; rewrite B2R_SF2B, val_SF2R; reflexivity).
  assert (EB : B2R B = val b) by (unfold B; rewrite B2R_SF2B, val_SF2R; reflexivity).
  assert (E : SFltb a b = Bltb A B) by (unfold Bltb, A, B; now rewrite !B2SF_SF2B).
  rewrite E, Bltb_correct, EA, EB; [reflexivity| |].
  - unfold A. rewrite is_finite_SF2B. now apply fin_SF.
  - unfold B. rewrite is_finite_SF2B. now apply fin_SF.
Qed.

Lemma sub_fin (a b : double) : is_double a -> is_double b -> finite a -> finite b -> 0 <= val a -> 0 <= val b -> finite (fsub a b).
Proof.
  unfold is_double. intros Ha Hb Fa Fb Pa Pb. cbn [fsub NumDouble] in *.
  set (A := SF2B a Ha : binary_float 53 1024). set (B := SF2B b Hb : binary_float 53 1024).
  assert (E : SFsub 53 1024 a b = B2SF (Bminus mode_NE A B)).
  { unfold A, B. destruct a as [sa|sa| |sa ma ea], b as [sb|sb| |sb mb eb]; try reflexivity;
      try (cbn; destruct (Bool.eqb sa (negb sb)); reflexivity).
    unfold Bminus. cbn [SF2B]. cbn [SFsub]. unfold Zminus. rewrite <- cond_Zopp_negb. apply bn_equiv. }
  assert (EA : B2R A = val a) by (unfold A; rewrite B2R_SF2B, val_SF2R; reflexivity).
  assert (EB : B2R B = val b) by (unfold B; rewrite B2R_SF2B, val_SF2R; reflexivity).
  assert (FA : is_finite A = true) by (unfold A; rewrite is_finite_SF2B; now apply fin_SF).
  assert (FB : is_finite B = true) by (unfold B; rewrite is_finite_SF2B; now apply fin_SF).
  pose proof (Bminus_correct 53 1024 Hprec Hmax mode_NE A B FA FB) as HC. rewrite EA, EB in HC.
  assert (L : Rabs (rnd (val a - val b)) < bpow radix2 1024).
  { pose proof (abs_B2R_lt_emax 53 1024 A) as MA. pose proof (abs_B2R_lt_emax 53 1024 B) as MB. rewrite EA, Rabs_pos_eq in MA by exact Pa. rewrite EB, Rabs_pos_eq in MB by exact Pb.
    apply Rle_lt_trans with (Rmax (val a) (val b)); [|now apply Rmax_lub_lt].
    apply abs_round_le_generic; [typeclasses eauto|typeclasses eauto| |].
    - unfold Rmax. destruct (Rle_dec _ _); now apply dbl_format.
    - apply Rabs_le. pose proof (Rmax_l (val a) (val b)). pose proof (Rmax_r (val a) (val b)). lra. }
  apply Rlt_bool_true in L. change (round_mode mode_NE) with ZnearestE in HC. change (SpecFloat.fexp 53 1024) with fe in HC.
  match type of HC with context[Rlt_bool ?u ?v] => replace (Rlt_bool u v) with true in HC by (symmetry; exact L) end.
  rewrite E. apply fin_SF. rewrite is_finite_SF_B2SF. apply HC.
Qed.

Lemma val_abs (a : double) : val (fabs a) = Rabs (val a).
Proof.
  destruct a as [s|s| |s m e]; cbn; try (rewrite Rabs_R0; reflexivity).
  assert (P : 0 <= IZR (Z.pos m) * powerRZ 2 e) by (apply Rmult_le_pos; [apply IZR_le; lia|left; apply powerRZ_lt; lra]).
  destruct s; [replace (-1 * IZR (Z.pos m) * powerRZ 2 e) with (- (IZR (Z.pos m) * powerRZ 2 e)) by ring; rewrite Rabs_Ropp|
    replace (1 * IZR (Z.pos m) * powerRZ 2 e) with (IZR (Z.pos m) * powerRZ 2 e) by ring]; rewrite Rabs_pos_eq; lra.
Qed.
Lemma real_abs (a : b64) : real (fabs a) = Rabs (real a).  Proof. apply val_abs. Qed.
Lemma f64_abs (a : b64) : fin64 a -> fin64 (fabs a).  Proof. destruct a as [[s|s| |s m e] H]; cbn; auto. Qed.
Lemma fmt_real (a : b64) : fmt (real a).  Proof. apply dbl_format, sf_ok. Qed.
Lemma real_leb (a b : b64) : fin64 a -> fin64 b -> fleb a b = Rle_bool (real a) (real b).
Proof. intros. apply val_leb; auto; apply sf_ok. Qed.
Lemma real_ltb (a b : b64) : fin64 a -> fin64 b -> fltb a b = Rlt_bool (real a) (real b).
Proof. intros. apply val_ltb; auto; apply sf_ok. Qed.
Lemma real_0 : real f0 = 0.  Proof. reflexivity. Qed.
Lemma real_1 : real f1 = 1.  Proof. apply val_one. Qed.
Lemma fin_0 : fin64 (f0 : b64).  Proof. exact I. Qed.
Lemma fin_1 : fin64 (f1 : b64).  Proof. exact I. Qed.
Lemma eqb_0 (a : b64) : fin64 a -> feqb a f0 = true -> real a = 0.
Proof. destruct a as [[s|s| |s m e] H]; cbn; try tauto. destruct s; cbn; discriminate. Qed.
Lemma eqb_n0 (a : b64) : feqb a f0 = false -> fin64 a -> real a <> 0.
Proof.
  destruct a as [[s|s| |s m e] H]; cbn; try tauto; try discriminate. intros _ _. unfold real. cbn [sf val].
  assert (0 < IZR (Z.pos m) * powerRZ 2 e) by (apply Rmult_lt_0_compat; [apply IZR_lt; lia|apply powerRZ_lt; lra]).
  destruct s; lra.
Qed.

(** ** One evaluation *)
Lemma ok_inv (a b c d s t y p : b64) : Ok (a, b, Some [c; d]) = Ok (s, t, Some [y; p]) -> a = s /\ c = y /\ d = p.
Proof. intros H. injection H as ? ? ? ?. auto. Qed.

Definition yield64 (Sy y0 : b64) : b64 := if feqb y0 f0 then Sy else y0.

Lemma slack_ge E K x a b : 0 <= real E -> 0 <= real K -> 0 <= x -> a <= 64 * uu * x -> b <= 64 * w * (1 + real E + real K + x) -> a + b <= slack E K x.
Proof.
  intros HE HK Hx Ha Hb. unfold slack.
  replace (powerRZ 2 (-47)) with (64 * uu).
  2: { rewrite <- uu_b. change 64 with (bpow radix2 6). rewrite <- bpow_plus, bpow_powerRZ. reflexivity. }
  replace (powerRZ 2 (-1068)) with (64 * w); [lra|].
  rewrite <- hh_b. change 64 with (bpow radix2 6). rewrite <- !bpow_plus, bpow_powerRZ. reflexivity.
Qed.

Section Eval.
  Variables (E K Sy e p0 y0 : b64).
  Hypothesis HP : params64 E K Sy.
  Hypothesis Fp0 : fin64 p0.  Hypothesis Fy0 : fin64 y0.
  Hypothesis Hy0 : 0 <= real y0.
  Let Y := yield64 Sy y0.
  Lemma Y_pos : 0 < real Y /\ fin64 Y.
  Proof.
    destruct HP as (_ & _ & FS & _ & _ & _ & HS). unfold Y, yield64. destruct (feqb y0 f0) eqn:Ey; [tauto|].
    apply eqb_n0 in Ey; [|exact Fy0]. split; [lra|exact Fy0].
  Qed.
  Let sg : b64 := fmul E (fsub e p0).
  Let X := real E * Rabs (real e - real p0).

  (** Trial stress. *)
  Lemma trial_err : fin64 sg -> Rabs (real sg - real E * (real e - real p0)) <= 3 * uu * X + w /\
    Rabs (real sg) <= X + 3 * uu * X + w /\ 0 <= X.
  Proof.
    intros Hs. destruct HP as (_ & _ & _ & _ & HE & _). pose proof uu_range as Hu. pose proof hh_range as Hh.
    unfold sg in *. destruct (f64_mul _ _ Hs) as [F1 F2]. rewrite (real_mul _ _ Hs), (real_sub _ _ F2).
    pose proof (minus_err _ _ (fmt_real e) (fmt_real p0)) as M1. set (c := rnd (real e - real p0)) in *. set (z := real e - real p0) in *.
    pose proof (rnd_err' (real E * c)) as M2.
    assert (X0 : 0 <= X) by (apply Rmult_le_pos; [lra|apply Rabs_pos]).
    assert (C1 : Rabs (real E * (c - z)) <= uu * X).
    { rewrite Rabs_mult, (Rabs_pos_eq (real E)) by lra. unfold X. fold z. replace (uu * (real E * Rabs z)) with (real E * (uu * Rabs z)) by ring.
      apply Rmult_le_compat_l; lra. }
    assert (C2 : Rabs (real E * z) = X) by (rewrite Rabs_mult, (Rabs_pos_eq (real E)) by lra; reflexivity).
    assert (C3 : Rabs (real E * c) <= X + uu * X).
    { replace (real E * c) with (real E * (c - z) + real E * z) by ring. eapply Rle_trans; [apply Rabs_triang|]. lra. }
    assert (C4 : uu * Rabs (real E * c) <= uu * (X + uu * X)) by (apply Rmult_le_compat_l; lra).
    assert (C5 : 0 <= uu * X <= / 1024 * X) by (split; [apply Rmult_le_pos; lra|apply Rmult_le_compat_r; lra]).
    assert (C6 : uu * (uu * X) <= / 1024 * (uu * X)) by (apply Rmult_le_compat_r; lra).
    assert (G : Rabs (rnd (real E * c) - real E * z) <= 3 * uu * X + w).
    { replace (rnd (real E * c) - real E * z) with ((rnd (real E * c) - real E * c) + real E * (c - z)) by ring.
      eapply Rle_trans; [apply Rabs_triang|]. lra. }
    split; [exact G|]. split; [|exact X0].
    replace (rnd (real E * c)) with ((rnd (real E * c) - real E * z) + real E * z) by ring. eapply Rle_trans; [apply Rabs_triang|]. lra.
  Qed.

  Lemma eval64 de s t y p : umat_elplast_iso e de [E; K; Sy] (Some [y0; p0]) = Ok (s, t, Some [y; p]) ->
    fin64 s -> fin64 y -> fin64 p ->
    real Y <= real y /\ Rabs (real s) <= real y + slack E K X /\
    Rabs (real s - real E * (real e - real p)) <= slack E K (real E * (Rabs (real e) + Rabs (real p0))) /\
    Rabs (real y - (real Y + real K * Rabs (real p - real p0))) <= slack E K ((real E + real K) * (Rabs (real e) + Rabs (real p0))) /\
    ((real y = real Y /\ real p = real p0) \/ real y <= Rabs (real s) + slack E K X) /\
    0 <= (real p - real p0) * (real e - real p0).
  Proof.
    intros H Fs Fy Fp. destruct Y_pos as [HY FY]. pose proof HP as (FE & FK & FS & FEK & HE & HK & HS).
    pose proof uu_range as Hu. pose proof hh_range as Hh. assert (w0 : 0 <= w) by nra. assert (w1 : w <= / 1024) by nra.
    unfold umat_elplast_iso in H. cbn [item nth_error bind] in H. cbv zeta in H.
    fold sg in H. fold (yield64 Sy y0) in H. fold Y in H.
    assert (Fsg : fin64 sg).
    { destruct (fleb _ _) in H; cbn [set_nth] in H; apply ok_inv in H as (Es & _ & _); rewrite <- Es in Fs; [exact Fs|].
      now destruct (f64_mul _ _ Fs). }
    destruct (trial_err Fsg) as (T1 & T2 & X0).
    assert (X1 : X <= real E * (Rabs (real e) + Rabs (real p0))).
    { unfold X. apply Rmult_le_compat_l; [lra|]. unfold Rminus. eapply Rle_trans; [apply Rabs_triang|]. rewrite Rabs_Ropp. lra. }
    assert (Q0 : 0 <= Rabs (real e) + Rabs (real p0)) by (pose proof (Rabs_pos (real e)); pose proof (Rabs_pos (real p0)); lra).
    assert (X3e : (real E + real K) * (Rabs (real e) + Rabs (real p0)) = real E * (Rabs (real e) + Rabs (real p0)) + real K * (Rabs (real e) + Rabs (real p0))) by ring.
    assert (KQ : 0 <= real K * (Rabs (real e) + Rabs (real p0))) by (apply Rmult_le_pos; lra).
    set (X3 := (real E + real K) * (Rabs (real e) + Rabs (real p0))) in *.
    set (X2 := real E * (Rabs (real e) + Rabs (real p0))) in *.
    assert (X23 : X2 <= X3) by lra.
    assert (uX : 0 <= uu * X <= / 1024 * X) by (split; [apply Rmult_le_pos; lra|apply Rmult_le_compat_r; lra]).
    assert (uX2 : uu * X <= uu * X2) by (apply Rmult_le_compat_l; lra).
    assert (wX : 0 <= w * X) by (apply Rmult_le_pos; lra). assert (wE : 0 <= w * real E) by (apply Rmult_le_pos; lra).
    assert (wK : 0 <= w * real K) by (apply Rmult_le_pos; lra). assert (ww : 0 <= w * w <= / 1024 * w) by (split; [nra|apply Rmult_le_compat_r; lra]).
    assert (wX2 : w * X <= w * X2) by (apply Rmult_le_compat_l; lra).
    assert (uX3 : uu * X2 <= uu * X3) by (apply Rmult_le_compat_l; lra).
    assert (wX3 : w * X2 <= w * X3) by (apply Rmult_le_compat_l; lra).
    assert (uw : 0 <= uu * w <= / 1024 * w) by (split; [apply Rmult_le_pos; lra|apply Rmult_le_compat_r; lra]).
    assert (wuX : 0 <= w * (uu * X) <= / 1024 * (w * X)).
    { split; [apply Rmult_le_pos; lra|]. replace (/ 1024 * (w * X)) with (w * (/ 1024 * X)) by ring. apply Rmult_le_compat_l; lra. }
    assert (uuX : 0 <= uu * (uu * X) <= / 1024 * (uu * X)) by (split; [apply Rmult_le_pos; lra|apply Rmult_le_compat_r; lra]).
    assert (Ff : fin64 (fsub (fabs sg) Y)).
    { apply (sub_fin (sf (fabs sg)) (sf Y)); [apply sf_ok|apply sf_ok|now apply f64_abs|exact FY| |].
      - change (0 <= real (fabs sg)). rewrite real_abs. apply Rabs_pos.
      - change (0 <= real Y). lra. }
    rewrite (real_leb _ _ Ff fin_0) in H. rewrite (real_sub _ _ Ff), real_abs, real_0 in H.
    set (T := Rabs (real sg)) in *.
    assert (FT : fmt T) by (apply generic_format_abs, fmt_real).
    revert H. case Rle_bool_spec; intros Hf H; cbn [set_nth] in H.
    - (* elastic *)
      apply ok_inv in H as (Es & Ey0 & Ep). subst s y p.
      assert (HT : T <= real Y).
      { destruct (Rle_or_lt T (real Y)) as [|HT]; [assumption|]. pose proof (minus_err _ _ FT (fmt_real Y)) as M.
        rewrite (Rabs_pos_eq (T - real Y)) in M by lra. apply Rabs_le_inv in M. assert (0 < (1 - uu) * (T - real Y)) by (apply Rmult_lt_0_compat; lra). lra. }
      assert (Ey : real (fadd Y (fmul K f0)) = real Y).
      { destruct (f64_add _ _ Fy) as [_ F2]. rewrite (real_add _ _ Fy), (real_mul _ _ F2), real_0, Rmult_0_r, rnd_0, Rplus_0_r. apply rnd_id, fmt_real. }
      change (real Y <= real (fadd Y (fmul K f0)) /\ Rabs (real sg) <= real (fadd Y (fmul K f0)) + slack E K X /\
              Rabs (real sg - real E * (real e - real p0)) <= slack E K X2 /\
              Rabs (real (fadd Y (fmul K f0)) - (real Y + real K * Rabs (real p0 - real p0))) <= slack E K X3 /\
              ((real (fadd Y (fmul K f0)) = real Y /\ real p0 = real p0) \/ real (fadd Y (fmul K f0)) <= Rabs (real sg) + slack E K X) /\
              0 <= (real p0 - real p0) * (real e - real p0)).
      rewrite Ey. fold T. split; [lra|]. split; [|split; [|split; [|split]]].
      + assert (0 + 0 <= slack E K X) by (apply slack_ge; lra). lra.
      + eapply Rle_trans; [exact T1|]. apply slack_ge; lra.
      + replace (real Y - (real Y + real K * Rabs (real p0 - real p0))) with 0 by (unfold Rminus; rewrite Rplus_opp_r, Rabs_R0; ring).
        rewrite Rabs_R0. assert (0 + 0 <= slack E K X3) by (apply slack_ge; lra). lra.
      + left. auto.
      + rewrite Rminus_eq_0, Rmult_0_l. lra.
    - (* plastic *)
      set (ft := fsub (fabs sg) Y) in *. set (dg := fdiv ft (fadd E K)) in *.
      change (Ok (fmul (fsub f1 (fdiv (fmul dg E) (fabs sg))) sg, fdiv (fmul E K) (fadd E K),
                  Some [fadd Y (fmul K dg); fadd p0 (fmul dg (fsign sg))]) = Ok (s, t, Some [y; p])) in H.
      apply ok_inv in H as (Es & Ey & Ep). subst s y p.
      destruct (f64_mul _ _ Fs) as [F1 _]. destruct (f64_sub _ _ F1) as [_ F2]. pose proof (f64_div _ _ F2) as F3. destruct (f64_mul _ _ F3) as [Fd _].
      destruct (f64_add _ _ Fy) as [_ F4]. destruct (f64_add _ _ Fp) as [_ F5].
      pose proof (corr_T T (real Y) Hf) as HT.
      pose proof (corr_M (real E) (real K) HE HK (fmt_real E) (fmt_real K)) as [HM _].
      assert (Er : real ft = rnd (T - real Y)) by (unfold ft; rewrite (real_sub _ _ Ff), real_abs; reflexivity).
      assert (EM : real (fadd E K) = rnd (real E + real K)) by now rewrite (real_add _ _ FEK).
      assert (Ed : real dg = rnd (rnd (T - real Y) / rnd (real E + real K))).
      { unfold dg. rewrite real_div, Er, EM; [reflexivity|exact FEK|rewrite EM; lra|exact Fd]. }
      assert (Eg : real (fmul dg E) = rnd (real dg * real E)) by now rewrite (real_mul _ _ F3).
      assert (Eq : real (fdiv (fmul dg E) (fabs sg)) = rnd (rnd (real dg * real E) / T)).
      { rewrite real_div, Eg, real_abs; [reflexivity|now apply f64_abs|rewrite real_abs; fold T; lra|exact F2]. }
      rewrite (real_mul _ _ Fs), (real_sub _ _ F1), real_1, Eq, (real_add _ _ Fy), (real_mul _ _ F4).
      destruct (corr_sum (real E) (real K) T (real Y) HE HK HY (fmt_real E) (fmt_real K) FT (fmt_real Y) Hf) as [DA DS].
      pose proof (corr_d (real E) (real K) T (real Y) HE HK (fmt_real E) (fmt_real K) Hf) as D0.
      destruct (corr_y (real E) (real K) T (real Y) HE HK HY (fmt_real E) (fmt_real K) FT (fmt_real Y) Hf) as [Y1 Y2].
      destruct (corr_s (real E) (real K) T (real Y) HE HK HY (fmt_real E) (fmt_real K) FT (fmt_real Y) Hf (real sg) eq_refl) as [S1 S2].
      rewrite <- Ed in *. set (d := real dg) in *.
      assert (uT : uu * T <= uu * (X + 3 * uu * X + w)) by (apply Rmult_le_compat_l; lra).
      assert (wT : w * T <= w * (X + 3 * uu * X + w)) by (apply Rmult_le_compat_l; lra).
      set (sn := if Rle_dec 0 (real sg) then 1 else -1) in *.
      assert (Esn : real (fsign sg) = sn).
      { unfold fsign, sn. rewrite (real_ltb _ _ fin_0 Fsg), (real_ltb _ _ Fsg fin_0), real_0.
        case Rlt_bool_spec; intros P1; [destruct (Rle_dec 0 (real sg)); [apply real_1|lra]|].
        case Rlt_bool_spec; intros P2; [destruct (Rle_dec 0 (real sg)); [lra|rewrite real_opp, real_1; reflexivity]|].
        assert (Z : real sg = 0) by lra. unfold T in HT. rewrite Z, Rabs_R0 in HT. lra. }
      assert (Ep : real (fadd p0 (fmul dg (fsign sg))) = rnd (real p0 + sn * d)).
      { rewrite (real_add _ _ Fp), (real_mul _ _ F5), Esn. f_equal. f_equal. fold d. replace (d * sn) with (sn * d) by ring.
        apply rnd_id. unfold sn. destruct (Rle_dec _ _); [rewrite Rmult_1_l; apply fmt_real|].
        replace (-1 * d) with (- d) by ring. apply generic_format_opp, fmt_real. }
      rewrite Ep.
      assert (Fsd : fmt (sn * d)).
      { unfold sn. destruct (Rle_dec _ _); [rewrite Rmult_1_l; apply fmt_real|].
        replace (-1 * d) with (- d) by ring. apply generic_format_opp, fmt_real. }
      pose proof (plus_err _ _ (fmt_real p0) Fsd) as P1. set (p1 := rnd (real p0 + sn * d)) in *.
      assert (Asn : Rabs (sn * d) = d) by (unfold sn; destruct (Rle_dec _ _); [rewrite Rabs_pos_eq; lra|rewrite Rabs_left1; lra]).
      assert (P2 : Rabs (p1 - (real p0 + sn * d)) <= uu * (Rabs (real p0) + d)).
      { eapply Rle_trans; [exact P1|]. apply Rmult_le_compat_l; [lra|]. eapply Rle_trans; [apply Rabs_triang|]. lra. }
      assert (P3 : Rabs (real E * (p1 - (real p0 + sn * d))) <= uu * (real E * Rabs (real p0)) + uu * (d * real E)).
      { rewrite Rabs_mult, (Rabs_pos_eq (real E)) by lra.
        replace (uu * (real E * Rabs (real p0)) + uu * (d * real E)) with (real E * (uu * (Rabs (real p0) + d))) by ring.
        apply Rmult_le_compat_l; lra. }
      assert (P4 : real E * Rabs (real p0) <= X2) by (unfold X2; apply Rmult_le_compat_l; [lra|]; pose proof (Rabs_pos (real e)); lra).
      assert (P5 : uu * (real E * Rabs (real p0)) <= uu * X2) by (apply Rmult_le_compat_l; lra).
      assert (dK : 0 <= d * real K) by (apply Rmult_le_pos; assumption).
      assert (dE : d * real E <= 2 * T + 2 * (w * real E) + 2 * (w * real K)) by lra.
      assert (P6 : uu * (d * real E) <= uu * (2 * T + 2 * (w * real E) + 2 * (w * real K))) by (apply Rmult_le_compat_l; lra).
      assert (uwE : uu * (w * real E) <= / 1024 * (w * real E)) by (apply Rmult_le_compat_r; lra).
      assert (uwK : uu * (w * real K) <= / 1024 * (w * real K)) by (apply Rmult_le_compat_r; lra).
      set (s1 := rnd (rnd (1 - rnd (rnd (d * real E) / T)) * real sg)) in *.
      split; [exact Y1|]. split; [|split; [|split; [|split]]].
      + eapply Rle_trans; [exact S1|]. rewrite Rplus_assoc. apply Rplus_le_compat_l.
        apply Rle_trans with ((40 * uu * X + 3 * uu * X) + (35 * w * (1 + real E + real K + X))); [lra|]. apply slack_ge; lra.
      + replace (s1 - real E * (real e - p1)) with ((s1 - (real sg - sn * (d * real E))) +
           ((real sg - real E * (real e - real p0)) + real E * (p1 - (real p0 + sn * d)))) by ring.
        eapply Rle_trans; [apply Rabs_triang|].
        pose proof (Rabs_triang (real sg - real E * (real e - real p0)) (real E * (p1 - (real p0 + sn * d)))) as TR.
        apply Rle_trans with (28 * uu * X2 + 30 * w * (1 + real E + real K + X2)); [lra|].
        assert (0 <= uu * X2) by lra. assert (0 <= w * X2) by lra. apply slack_ge; lra.
      + (* hardening *)
        assert (A1 : Rabs (Rabs (p1 - real p0) - d) <= uu * (Rabs (real p0) + d)).
        { rewrite <- Asn at 1. eapply Rle_trans; [apply Rabs_triang_inv2|].
          replace (p1 - real p0 - sn * d) with (p1 - (real p0 + sn * d)) by ring. exact P2. }
        assert (A2 : Rabs (real K * (Rabs (p1 - real p0) - d)) <= uu * (real K * Rabs (real p0)) + uu * (d * real K)).
        { rewrite Rabs_mult, (Rabs_pos_eq (real K)) by lra.
          replace (uu * (real K * Rabs (real p0)) + uu * (d * real K)) with (real K * (uu * (Rabs (real p0) + d))) by ring.
          apply Rmult_le_compat_l; lra. }
        assert (A3 : real K * Rabs (real p0) <= X3).
        { assert (real K * Rabs (real p0) <= real K * (Rabs (real e) + Rabs (real p0)));
            [apply Rmult_le_compat_l; [lra|pose proof (Rabs_pos (real e)); lra]|lra]. }
        assert (A4 : uu * (real K * Rabs (real p0)) <= uu * X3) by (apply Rmult_le_compat_l; lra).
        assert (A5 : 0 <= d * real E) by (apply Rmult_le_pos; lra).
        assert (A6 : d * real K <= 2 * T + 2 * (w * real E) + 2 * (w * real K)) by lra.
        assert (A7 : uu * (d * real K) <= uu * (2 * T + 2 * (w * real E) + 2 * (w * real K))) by (apply Rmult_le_compat_l; lra).
        set (y1 := rnd (real Y + rnd (real K * d))) in *.
        replace (y1 - (real Y + real K * Rabs (p1 - real p0))) with ((y1 - (real Y + real K * d)) - real K * (Rabs (p1 - real p0) - d)) by ring.
        eapply Rle_trans; [apply Rabs_triang|]. rewrite Rabs_Ropp.
        apply Rle_trans with (28 * uu * X3 + 30 * w * (1 + real E + real K + X3)); [lra|].
        assert (0 <= uu * X3) by lra. assert (0 <= w * X3) by lra. apply slack_ge; lra.
      + (* flow at the yield stress *)
        right.
        set (y1 := rnd (real Y + rnd (real K * d))) in *.
        assert (B1 : Rabs (real sg - sn * (d * real E)) >= T - d * real E).
        { unfold T, sn. destruct (Rle_dec 0 (real sg)) as [P|P].
          - rewrite (Rabs_pos_eq (real sg)) by lra. pose proof (Rle_abs (real sg - 1 * (d * real E))). lra.
          - rewrite (Rabs_left1 (real sg)) by lra. pose proof (Rle_abs (- (real sg - -1 * (d * real E)))) as B. rewrite Rabs_Ropp in B. lra. }
        pose proof (Rabs_triang_inv2 s1 (real sg - sn * (d * real E))) as B2.
        apply Rabs_le_inv in Y2, DA. assert (B3 := Rle_trans _ _ _ B2 S2). apply Rabs_le_inv in B3.
        assert (y1 <= Rabs s1 + ((40 * uu * X + 3 * uu * X) + (35 * w * (1 + real E + real K + X)))) by lra.
        eapply Rle_trans; [eassumption|]. apply Rplus_le_compat_l. apply slack_ge; lra.
      + (* direction *)
        assert (Hc : real sg = rnd (real E * rnd (real e - real p0))).
        { unfold sg in *. destruct (f64_mul _ _ Fsg) as [_ G2]. rewrite (real_mul _ _ Fsg), (real_sub _ _ G2). reflexivity. }
        unfold sn in *. destruct (Rle_dec 0 (real sg)) as [P|P].
        * apply Rmult_le_pos.
          -- assert (real p0 <= p1); [|lra]. unfold p1. rewrite <- (rnd_id _ (fmt_real p0)) at 1. apply rnd_mono. lra.
          -- destruct (Rle_or_lt 0 (real e - real p0)) as [|N]; [assumption|]. exfalso.
             assert (N1 : rnd (real e - real p0) <= 0) by (rewrite <- rnd_0; apply rnd_mono; lra).
             assert (N2 : real sg <= 0).
             { rewrite Hc, <- rnd_0. apply rnd_mono. rewrite <- (Rmult_0_r (real E)). apply Rmult_le_compat_l; lra. }
             assert (Z : real sg = 0) by lra. unfold T in HT. rewrite Z, Rabs_R0 in HT. lra.
        * assert (M1 : p1 <= real p0) by (unfold p1; rewrite <- (rnd_id _ (fmt_real p0)) at 2; apply rnd_mono; lra).
          assert (M2 : real e - real p0 <= 0).
          { destruct (Rle_or_lt (real e - real p0) 0) as [|N]; [assumption|]. exfalso. apply P. rewrite Hc, <- rnd_0. apply rnd_mono.
            apply Rmult_le_pos; [lra|]. rewrite <- rnd_0. apply rnd_mono. lra. }
          replace ((p1 - real p0) * (real e - real p0)) with ((real p0 - p1) * (- (real e - real p0))) by ring. apply Rmult_le_pos; lra.
  Qed.
End Eval.
