(** * Nodal sums of member forces in double precision *)
From Coq Require Import List ZArith Bool Arith Lia Reals Lra SpecFloat.
From Flocq Require Import Core BinarySingleNaN Relative.
Import ListNotations.
From Verif Require Import Num Vec Handlers Material Analysis Truss Equil Solver Run ListFacts SpecMech EquilFacts
  SpecSolver SolverFacts PathFacts SpecState FrameFacts SpecRun RunFacts EvalFacts RecFacts ReachFacts SessionFacts RunProps
  SpecBuild NumR SpecMechR Double SpecDouble DoubleFacts SpecRound RoundFacts Binary64 SpecBalance64 Balance64Facts SpecNode64.
Local Open Scope R_scope.
#[local] Existing Instance Hprec.
Local Notation fe := (FLT_exp (-1074) 53).
Local Notation rnd := (round radix2 fe ZnearestE).

(** ** Real arithmetic of one member *)
Lemma comp_err a b c d :
  Rabs (rnd (rnd (a - b) + rnd (c - d)) - (a - b + (c - d))) <= 3 * uu * (Rabs a + Rabs b + Rabs c + Rabs d) + 4 * (hh * hh).
Proof.
  pose proof uu_range as Hu. pose proof hh_range as Hh.
  pose proof (rnd_err' (a - b)) as E1. pose proof (rnd_err' (c - d)) as E2. pose proof (rnd_err' (rnd (a - b) + rnd (c - d))) as E3.
  set (s := rnd (a - b)) in *. set (t := rnd (c - d)) in *. set (w := rnd (s + t)) in *.
  assert (A1 : Rabs (a - b) <= Rabs a + Rabs b) by (unfold Rminus; eapply Rle_trans; [apply Rabs_triang|]; rewrite Rabs_Ropp; lra).
  assert (A2 : Rabs (c - d) <= Rabs c + Rabs d) by (unfold Rminus; eapply Rle_trans; [apply Rabs_triang|]; rewrite Rabs_Ropp; lra).
  set (S1 := Rabs a + Rabs b) in *. set (S2 := Rabs c + Rabs d) in *.
  assert (P1 : 0 <= S1) by (pose proof (Rabs_pos a); pose proof (Rabs_pos b); unfold S1; lra).
  assert (P2 : 0 <= S2) by (pose proof (Rabs_pos c); pose proof (Rabs_pos d); unfold S2; lra).
  assert (B1 : Rabs (s - (a - b)) <= uu * S1 + hh * hh) by nra.
  assert (B2 : Rabs (t - (c - d)) <= uu * S2 + hh * hh) by nra.
  assert (B3 : Rabs (s + t) <= (1 + uu) * (S1 + S2) + 2 * (hh * hh)).
  { replace (s + t) with ((s - (a - b)) + ((t - (c - d)) + ((a - b) + (c - d)))) by ring.
    eapply Rle_trans; [apply Rabs_triang|]. pose proof (Rabs_triang (t - (c - d)) ((a - b) + (c - d))) as T1.
    pose proof (Rabs_triang (a - b) (c - d)) as T2. lra. }
  replace (w - (a - b + (c - d))) with ((w - (s + t)) + ((s - (a - b)) + (t - (c - d)))) by ring.
  pose proof (Rabs_triang (w - (s + t)) ((s - (a - b)) + (t - (c - d)))) as T1.
  pose proof (Rabs_triang (s - (a - b)) (t - (c - d))) as T2.
  assert (C1 : uu * Rabs (s + t) <= uu * ((1 + uu) * (S1 + S2) + 2 * (hh * hh))) by (apply Rmult_le_compat_l; lra).
  assert (C2 : uu * ((1 + uu) * (S1 + S2)) <= 2 * uu * (S1 + S2)).
  { replace (2 * uu * (S1 + S2)) with (uu * (2 * (S1 + S2))) by ring. apply Rmult_le_compat_l; [lra|]. apply Rmult_le_compat_r; lra. }
  assert (C3 : uu * (2 * (hh * hh)) <= hh * hh) by (assert (0 <= hh * hh) by nra; nra).
  replace (3 * uu * (Rabs a + Rabs b + Rabs c + Rabs d)) with (uu * S1 + uu * S2 + 2 * uu * (S1 + S2)) by (unfold S1, S2; ring).
  replace (uu * ((1 + uu) * (S1 + S2) + 2 * (hh * hh))) with (uu * ((1 + uu) * (S1 + S2)) + uu * (2 * (hh * hh))) in C1 by ring.
  unfold S1, S2 in *. lra.
Qed.

Lemma dot_err x y z : let A := x * x + y * y + z * z in
  Rabs (rnd (rnd (rnd (x * x) + rnd (y * y)) + rnd (z * z)) - A) <= 4 * uu * A + 10 * (hh * hh).
Proof.
  intros A. pose proof uu_range as Hu. pose proof hh_range as Hh.
  pose proof (rnd_err' (x * x)) as E1. pose proof (rnd_err' (y * y)) as E2. pose proof (rnd_err' (z * z)) as E3.
  rewrite (Rabs_pos_eq (x * x)) in E1 by apply Rle_0_sqr. rewrite (Rabs_pos_eq (y * y)) in E2 by apply Rle_0_sqr.
  rewrite (Rabs_pos_eq (z * z)) in E3 by apply Rle_0_sqr.
  assert (P1 : 0 <= x * x) by apply Rle_0_sqr. assert (P2 : 0 <= y * y) by apply Rle_0_sqr. assert (P3 : 0 <= z * z) by apply Rle_0_sqr.
  set (X := x * x) in *. set (Y := y * y) in *. set (Z := z * z) in *.
  pose proof (rnd_err' (rnd X + rnd Y)) as E4. pose proof (rnd_err' (rnd (rnd X + rnd Y) + rnd Z)) as E5.
  pose proof (rnd_ge0 _ P1) as Q1. pose proof (rnd_ge0 _ P2) as Q2. pose proof (rnd_ge0 _ P3) as Q3.
  assert (Q4 : 0 <= rnd (rnd X + rnd Y)) by (apply rnd_ge0; lra).
  rewrite (Rabs_pos_eq (rnd X + rnd Y)) in E4 by lra.
  rewrite (Rabs_pos_eq (rnd (rnd X + rnd Y) + rnd Z)) in E5 by lra.
  set (a := rnd X) in *. set (b := rnd Y) in *. set (c := rnd Z) in *. set (s := rnd (a + b)) in *. set (t := rnd (s + c)) in *.
  set (e := hh * hh) in *. assert (He : 0 <= e) by (unfold e; nra).
  assert (H1 : Rabs (a - X) <= uu * X + e) by lra.
  assert (G : forall v w d, Rabs (v - w) <= d -> w - d <= v <= w + d).
  { intros v w d H. unfold Rabs in H. destruct (Rcase_abs _); lra. }
  apply G in E1, E2, E3, E4, E5.
  assert (K1 : a + b <= (1 + uu) * (X + Y) + 2 * e) by lra.
  assert (K2 : uu * (a + b) <= uu * ((1 + uu) * (X + Y) + 2 * e)) by (apply Rmult_le_compat_l; lra).
  assert (K3 : uu * (s + c) <= uu * ((1 + uu) * ((1 + uu) * (X + Y) + 2 * e) + e + ((1 + uu) * Z + e))) by (apply Rmult_le_compat_l; lra).
  assert (K4 : uu * ((1 + uu) * (X + Y) + 2 * e) <= (5 / 4) * uu * (X + Y) + e).
  { assert (uu * e <= e / 1024) by nra. assert (uu * (X + Y) * uu <= uu * (X + Y) * / 1024) by (apply Rmult_le_compat_l; nra). lra. }
  assert (K5 : uu * ((1 + uu) * ((1 + uu) * (X + Y) + 2 * e) + e + ((1 + uu) * Z + e)) <= (5 / 4) * uu * (X + Y + Z) + e).
  { assert (U1 : uu * e <= e / 1024) by nra.
    assert (U2 : (1 + uu) * (1 + uu) <= 5 / 4) by nra.
    assert (U3 : (1 + uu) * (1 + uu) * (X + Y) <= (5 / 4) * (X + Y)) by (apply Rmult_le_compat_r; lra).
    assert (U4 : (1 + uu) * Z <= (5 / 4) * Z) by (apply Rmult_le_compat_r; lra).
    assert (U5 : (1 + uu) * ((1 + uu) * (X + Y) + 2 * e) + e + ((1 + uu) * Z + e) <= (5 / 4) * (X + Y + Z) + 5 * e) by nra.
    apply Rle_trans with (uu * ((5 / 4) * (X + Y + Z) + 5 * e)); [apply Rmult_le_compat_l; lra|]. lra. }
  apply Rabs_le. unfold A. fold X Y Z. assert (0 <= uu * X) by nra. assert (0 <= uu * Y) by nra. assert (0 <= uu * Z) by nra. split; lra.
Qed.

(** Lengths below [gg] are out of the question. *)
Definition gg : R := powerRZ 2 (-400).
Lemma gg_b : bpow radix2 (-400) = gg.  Proof. unfold gg. rewrite bpow_powerRZ. reflexivity. Qed.
Lemma gg_range : 0 < gg < / 1024.
Proof. rewrite <- gg_b. split; [apply bpow_gt_0|]. change (/ 1024) with (bpow radix2 (-10)). apply bpow_lt. lia. Qed.
Lemma hh_gg : hh <= uu * gg / 1024.
Proof.
  rewrite <- hh_b, <- uu_b, <- gg_b. unfold Rdiv. change (/ 1024) with (bpow radix2 (-10)). rewrite <- !bpow_plus. apply bpow_le. lia.
Qed.

(** Square root of nearly a square. *)
Lemma sqrt_err A D : gg * gg <= A -> Rabs (D - A) <= 4 * uu * A + 10 * (hh * hh) ->
  Rabs (rnd (sqrt D) - sqrt A) <= 7 * uu * sqrt A.
Proof.
  intros HA HD. pose proof uu_range as Hu. pose proof hh_range as Hh. pose proof gg_range as Hg. pose proof hh_gg as hg.
  assert (HA0 : 0 <= A) by nra.
  assert (H0 : hh * hh <= (uu * gg / 1024) * (uu * gg / 1024)) by (apply Rmult_le_compat; lra).
  assert (H01 : (uu * gg / 1024) * (uu * gg / 1024) <= uu * (gg * gg) / 1024).
  { replace ((uu * gg / 1024) * (uu * gg / 1024)) with (uu * (gg * gg) * (uu / (1024 * 1024))) by field.
    replace (uu * (gg * gg) / 1024) with (uu * (gg * gg) * (/ 1024)) by field. apply Rmult_le_compat_l; [nra|lra]. }
  assert (H02 : uu * (gg * gg) <= uu * A) by (apply Rmult_le_compat_l; lra).
  assert (H03 : 0 <= uu * A) by nra.
  assert (H1 : 10 * (hh * hh) <= uu * A / 64) by lra.
  assert (H2 : Rabs (D - A) <= 5 * uu * A) by lra.
  assert (G : forall v w d, Rabs (v - w) <= d -> w - d <= v <= w + d).
  { intros v w d H. unfold Rabs in H. destruct (Rcase_abs _); lra. }
  apply G in H2. set (r := sqrt A). assert (Hr : 0 <= r) by apply sqrt_pos. assert (Er : r * r = A) by (apply sqrt_sqrt; lra).
  assert (D0 : 0 <= D) by nra. set (s := sqrt D). assert (Hs : 0 <= s) by apply sqrt_pos. assert (Es : s * s = D) by (apply sqrt_sqrt; lra).
  assert (H3 : Rabs (s - r) <= 5 * uu * r).
  { apply Rabs_le. split.
    - assert ((r - 5 * uu * r) <= s); [|lra]. apply Rsqr_incr_0_var; [|exact Hs]. unfold Rsqr. rewrite Es.
      replace ((r - 5 * uu * r) * (r - 5 * uu * r)) with (r * r * ((1 - 5 * uu) * (1 - 5 * uu))) by ring. rewrite Er.
      assert ((1 - 5 * uu) * (1 - 5 * uu) <= 1 - 5 * uu) by nra. nra.
    - assert (s <= r + 5 * uu * r); [|lra]. apply Rsqr_incr_0_var; [|nra]. unfold Rsqr. rewrite Es.
      replace ((r + 5 * uu * r) * (r + 5 * uu * r)) with (r * r * ((1 + 5 * uu) * (1 + 5 * uu))) by ring. rewrite Er.
      assert (1 + 5 * uu <= (1 + 5 * uu) * (1 + 5 * uu)) by nra. nra. }
  pose proof (rnd_err' s) as E. rewrite (Rabs_pos_eq s Hs) in E.
  apply G in H3. apply G in E. apply Rabs_le.
  assert (hr : gg <= r).
  { apply Rsqr_incr_0_var; [|exact Hr]. unfold Rsqr. rewrite Er. exact HA. }
  assert (H40 : uu * gg <= uu * r) by (apply Rmult_le_compat_l; lra).
  assert (H4 : hh * hh <= uu * r / 1024) by nra.
  assert (H5 : uu * s <= uu * (r + 5 * uu * r)) by (apply Rmult_le_compat_l; lra).
  assert (H6 : uu * (r + 5 * uu * r) <= 3 / 2 * (uu * r)).
  { replace (uu * (r + 5 * uu * r)) with (uu * r * (1 + 5 * uu)) by ring. assert (0 <= uu * r) by nra. nra. }
  split; lra.
Qed.

(** Lengths of nearby vectors. *)
Lemma len_le px py pz ex ey ez :
  sqrt ((px + ex) * (px + ex) + (py + ey) * (py + ey) + (pz + ez) * (pz + ez)) <=
  sqrt (px * px + py * py + pz * pz) + (Rabs ex + Rabs ey + Rabs ez).
Proof.
  set (l := sqrt (px * px + py * py + pz * pz)).
  assert (Hl : 0 <= l) by apply sqrt_pos.
  assert (El : l * l = px * px + py * py + pz * pz) by (apply sqrt_sqrt; nra).
  assert (B : forall x y z, x * x + y * y + z * z = l * l -> Rabs x <= l).
  { intros x y z E. apply Rsqr_incr_0_var; [|exact Hl]. rewrite <- Rsqr_abs. unfold Rsqr. rewrite <- E. pose proof (Rle_0_sqr y) as Y. pose proof (Rle_0_sqr z) as Z. unfold Rsqr in *. lra. }
  pose proof (B px py pz ltac:(lra)) as B1. pose proof (B py px pz ltac:(lra)) as B2. pose proof (B pz py px ltac:(lra)) as B3.
  pose proof (Rabs_pos ex). pose proof (Rabs_pos ey). pose proof (Rabs_pos ez).
  assert (C : forall p e, Rabs p <= l -> p * e <= l * Rabs e).
  { intros p e Hp. eapply Rle_trans; [apply Rle_abs|]. rewrite Rabs_mult. apply Rmult_le_compat_r; [apply Rabs_pos|exact Hp]. }
  assert (D : forall e, e * e = Rabs e * Rabs e) by (intros e; rewrite <- Rabs_mult; symmetry; apply Rabs_pos_eq, Rle_0_sqr).
  apply Rsqr_incr_0_var; [|lra]. unfold Rsqr.
  rewrite sqrt_sqrt by (repeat apply Rplus_le_le_0_compat; apply Rle_0_sqr).
  pose proof (C px ex B1). pose proof (C py ey B2). pose proof (C pz ez B3).
  pose proof (D ex). pose proof (D ey). pose proof (D ez).
  assert (0 <= Rabs ex * Rabs ey) by (apply Rmult_le_pos; assumption). assert (0 <= Rabs ex * Rabs ez) by (apply Rmult_le_pos; assumption).
  assert (0 <= Rabs ey * Rabs ez) by (apply Rmult_le_pos; assumption).
  replace ((px + ex) * (px + ex) + (py + ey) * (py + ey) + (pz + ez) * (pz + ez)) with
    (l * l + 2 * (px * ex + py * ey + pz * ez) + (ex * ex + ey * ey + ez * ez)) by (rewrite El; ring).
  replace ((l + (Rabs ex + Rabs ey + Rabs ez)) * (l + (Rabs ex + Rabs ey + Rabs ez))) with
    (l * l + 2 * (l * Rabs ex + l * Rabs ey + l * Rabs ez) + (Rabs ex * Rabs ex + Rabs ey * Rabs ey + Rabs ez * Rabs ez
     + 2 * (Rabs ex * Rabs ey + Rabs ex * Rabs ez + Rabs ey * Rabs ez))) by ring.
  lra.
Qed.

(** ** The direction of one member *)
Section Direction.
  Variables (p a : v3 R) (l K : R).
  Hypothesis El : l = sqrt (vx p * vx p + vy p * vy p + vz p * vz p).
  Hypothesis HK : 1 <= K.
  Hypothesis HuK : uu * K <= / 4096.
  Hypothesis Hl : 2 * gg <= l.
  Hypothesis Ha : Rabs (vx a - vx p) + Rabs (vy a - vy p) + Rabs (vz a - vz p) <= 4 * uu * K * l.
  Let A := vx a * vx a + vy a * vy a + vz a * vz a.
  Let lh := rnd (sqrt (rnd (rnd (rnd (vx a * vx a) + rnd (vy a * vy a)) + rnd (vz a * vz a)))).

  Lemma dir_len : Rabs (lh - l) <= 12 * uu * K * l.
  Proof.
    pose proof uu_range as Hu. pose proof hh_range as Hh.
    pose proof gg_range as Hg. assert (L0 : 0 < l) by lra.
    assert (Q : Rabs (sqrt A - l) <= 4 * uu * K * l).
    { apply Rabs_le. split.
      - pose proof (len_le (vx a) (vy a) (vz a) (vx p - vx a) (vy p - vy a) (vz p - vz a)) as H.
        replace (vx a + (vx p - vx a)) with (vx p) in H by ring. replace (vy a + (vy p - vy a)) with (vy p) in H by ring.
        replace (vz a + (vz p - vz a)) with (vz p) in H by ring. rewrite <- El in H. fold A in H.
        rewrite (Rabs_minus_sym (vx p)), (Rabs_minus_sym (vy p)), (Rabs_minus_sym (vz p)) in H. lra.
      - pose proof (len_le (vx p) (vy p) (vz p) (vx a - vx p) (vy a - vy p) (vz a - vz p)) as H.
        replace (vx p + (vx a - vx p)) with (vx a) in H by ring. replace (vy p + (vy a - vy p)) with (vy a) in H by ring.
        replace (vz p + (vz a - vz p)) with (vz a) in H by ring. rewrite <- El in H. fold A in H. lra. }
    assert (U1 : uu * K * l <= l / 4096) by (unfold Rdiv; rewrite (Rmult_comm l); apply Rmult_le_compat_r; lra).
    assert (S1 : l / 2 <= sqrt A) by (unfold Rabs in Q; destruct (Rcase_abs _); lra).
    assert (A0 : 0 <= A) by (unfold A; repeat apply Rplus_le_le_0_compat; apply Rle_0_sqr).
    assert (EA : sqrt A * sqrt A = A) by (apply sqrt_sqrt; exact A0).
    assert (HA : gg * gg <= A) by (rewrite <- EA; apply Rmult_le_compat; lra).
    pose proof (sqrt_err A _ HA (dot_err (vx a) (vy a) (vz a))) as E. fold lh in E.
    assert (S2 : sqrt A <= 17 / 16 * l) by (unfold Rabs in Q; destruct (Rcase_abs _); lra).
    assert (S3 : uu * sqrt A <= uu * (17 / 16 * l)) by (apply Rmult_le_compat_l; lra).
    assert (S4 : uu * l <= uu * K * l) by (apply Rmult_le_compat_r; [lra|]; rewrite <- (Rmult_1_r uu) at 1; apply Rmult_le_compat_l; lra).
    assert (S5 : 0 <= uu * l) by nra.
    replace (lh - l) with ((lh - sqrt A) + (sqrt A - l)) by ring. eapply Rle_trans; [apply Rabs_triang|]. lra.
  Qed.

  (** One component of the direction. *)
  Lemma dir_comp ad pd : Rabs (ad - pd) <= 4 * uu * K * l -> Rabs pd <= l ->
    0 < lh /\ Rabs (rnd (ad / lh) - pd / l) <= 20 * uu * K.
  Proof.
    intros H1 H2. pose proof uu_range as Hu. pose proof hh_range as Hh. pose proof gg_range as Hg. assert (L0 : 0 < l) by lra.
    pose proof dir_len as D.
    assert (U1 : uu * K * l <= l / 4096) by (unfold Rdiv; rewrite (Rmult_comm l); apply Rmult_le_compat_r; lra).
    assert (D1 : Rabs (lh - l) <= l / 16) by lra.
    assert (LH : l * (15 / 16) <= lh) by (unfold Rabs in D1; destruct (Rcase_abs _); lra).
    split; [lra|].
    assert (Q : Rabs (ad / lh - pd / l) <= 18 * uu * K).
    { replace (ad / lh - pd / l) with (((ad - pd) - pd / l * (lh - l)) / lh) by (field; lra).
      unfold Rdiv at 1. rewrite Rabs_mult, (Rabs_pos_eq (/ lh)) by (left; apply Rinv_0_lt_compat; lra).
      apply Rmult_le_reg_r with lh; [lra|]. rewrite Rmult_assoc, Rinv_l, Rmult_1_r by lra.
      apply Rle_trans with (16 * uu * K * l).
      - unfold Rminus at 1. eapply Rle_trans; [apply Rabs_triang|]. rewrite Rabs_Ropp, Rabs_mult.
        assert (N : Rabs (pd / l) <= 1).
        { unfold Rdiv. rewrite Rabs_mult, (Rabs_pos_eq (/ l)) by (left; apply Rinv_0_lt_compat; lra).
          apply Rmult_le_reg_r with l; [lra|]. rewrite Rmult_assoc, Rinv_l by lra. lra. }
        assert (N2 : Rabs (pd / l) * Rabs (lh - l) <= 1 * Rabs (lh - l)) by (apply Rmult_le_compat_r; [apply Rabs_pos|exact N]). lra.
      - assert (0 <= uu * K) by nra. apply Rle_trans with (18 * uu * K * (l * (15 / 16))); [nra|]. apply Rmult_le_compat_l; nra. }
    assert (N : Rabs (pd / l) <= 1).
    { unfold Rdiv. rewrite Rabs_mult, (Rabs_pos_eq (/ l)) by (left; apply Rinv_0_lt_compat; lra).
      apply Rmult_le_reg_r with l; [lra|]. rewrite Rmult_assoc, Rinv_l by lra. lra. }
    pose proof (rnd_err' (ad / lh)) as E.
    assert (Q2 : Rabs (ad / lh) <= 1 + 18 * uu * K).
    { replace (ad / lh) with ((ad / lh - pd / l) + pd / l) by ring. eapply Rle_trans; [apply Rabs_triang|]. lra. }
    assert (Q3 : uu * Rabs (ad / lh) <= uu * (1 + 18 * uu * K)) by (apply Rmult_le_compat_l; lra).
    assert (Q4 : hh * hh <= uu / 1024 * K).
    { pose proof hh_gg. assert (uu * gg <= uu * 1) by (apply Rmult_le_compat_l; lra). nra. }
    assert (Q5 : uu <= uu * K) by (rewrite <- (Rmult_1_r uu) at 1; apply Rmult_le_compat_l; lra).
    assert (Q6 : uu * (18 * uu * K) <= uu * K / 16) by nra.
    replace (rnd (ad / lh) - pd / l) with ((rnd (ad / lh) - ad / lh) + (ad / lh - pd / l)) by ring.
    eapply Rle_trans; [apply Rabs_triang|]. lra.
  Qed.
End Direction.

(** ** Doubles *)
Lemma f64_add (a b : b64) : fin64 (fadd a b) -> fin64 a /\ fin64 b.  Proof. apply fin_add. Qed.
Lemma f64_sub (a b : b64) : fin64 (fsub a b) -> fin64 a /\ fin64 b.  Proof. apply fin_sub. Qed.
Lemma f64_mul (a b : b64) : fin64 (fmul a b) -> fin64 a /\ fin64 b.  Proof. apply fin_mul. Qed.
Lemma f64_div (a b : b64) : fin64 (fdiv a b) -> fin64 a.  Proof. apply fin_div. Qed.
Lemma f64_sqrt (a : b64) : fin64 (fsqrt a) -> fin64 a.  Proof. apply fin_sqrt. Qed.
Lemma f64_opp (a : b64) : fin64 (fopp a) -> fin64 a.  Proof. apply fin_opp. Qed.
Lemma real_add (a b : b64) : fin64 (fadd a b) -> real (fadd a b) = rnd (real a + real b).
Proof. intros H. apply val_add; [apply sf_ok|apply sf_ok|exact H]. Qed.
Lemma real_sub (a b : b64) : fin64 (fsub a b) -> real (fsub a b) = rnd (real a - real b).
Proof. intros H. apply val_sub; [apply sf_ok|apply sf_ok|exact H]. Qed.
Lemma real_mul (a b : b64) : fin64 (fmul a b) -> real (fmul a b) = rnd (real a * real b).
Proof. intros H. apply val_mul; [apply sf_ok|apply sf_ok|exact H]. Qed.
Lemma real_sqrt (a : b64) : fin64 (fsqrt a) -> real (fsqrt a) = rnd (sqrt (real a)).
Proof. intros H. apply val_sqrt; [apply sf_ok|exact H]. Qed.
Lemma real_div (a b : b64) : fin64 b -> real b <> 0 -> fin64 (fdiv a b) -> real (fdiv a b) = rnd (real a / real b).
Proof. intros H1 H2 H. apply val_div; [apply sf_ok|apply sf_ok|exact H1|exact H2|exact H]. Qed.
Lemma real_opp (a : b64) : real (fopp a) = - real a.
Proof. apply val_opp. Qed.

Lemma f64_law u (e de : b64) mat sv s t st : umat u e de mat sv = Ok (s, t, st) -> fin64 s -> fin64 e.
Proof.
  destruct u; cbn [umat].
  - unfold umat_el. intros H. mstep H. injection H as <- _ _. unfold fin64. intros H. cbn [sf] in H. now apply (fin_mul _ _) in H.
  - unfold umat_elplast_iso. intros H. mstep H. mstep H. mstep H. destruct sv as [sv|]; [|discriminate].
    mstep H. mstep H. cbv zeta in H. destruct (fleb _ _).
    + injection H as <- _ _. unfold fin64. intros H. cbn [sf] in H. apply (fin_mul _ _) in H. destruct H as [_ H]. now apply (fin_sub _ _) in H.
    + injection H as <- _ _. unfold fin64. intros H. cbn [sf] in H. apply (fin_mul _ _) in H. destruct H as [_ H]. apply (fin_mul _ _) in H. destruct H as [_ H]. now apply (fin_sub _ _) in H.
Qed.

Section Member.
  Variables (XA XE UA UE U0A U0E : v3 b64).
  Let p : v3 R := V3 (real (vx XE) - real (vx XA) + (real (vx UE) - real (vx UA)))
                     (real (vy XE) - real (vy XA) + (real (vy UE) - real (vy UA)))
                     (real (vz XE) - real (vz XA) + (real (vz UE) - real (vz UA))).
  Let l : R := sqrt (vx p * vx p + vy p * vy p + vz p * vz p).
  Let S : R := (Rabs (real (vx XE)) + Rabs (real (vx XA)) + Rabs (real (vx UE)) + Rabs (real (vx UA))) +
               (Rabs (real (vy XE)) + Rabs (real (vy XA)) + Rabs (real (vy UE)) + Rabs (real (vy UA))) +
               (Rabs (real (vz XE)) + Rabs (real (vz XA)) + Rabs (real (vz UE)) + Rabs (real (vz UA))).

  Lemma member_dir u mat geo sv q d K :
    truss_quantities XA XE UA UE U0A U0E u mat geo sv = Ok q -> fin64 (q_N q) -> fin64 (vget (q_n q) d) ->
    S <= K * l -> 2 * gg <= l -> 1 <= K -> uu * K <= / 4096 ->
    Rabs (real (vget (q_n q) d) - vget p d / l) <= 20 * uu * K /\ Rabs (vget p d / l) <= 1.
  Proof.
    unfold truss_quantities. intros H. mstep H. destruct a as [[s t] st]. mstep H. injection H as <-. cbn [q_N q_n].
    set (dx := vadd (vsub XE XA) (vsub UE UA)) in *. intros HN Hn HS Hl HK HuK.
    apply f64_mul in HN. destruct HN as [Hs _]. pose proof (f64_law _ _ _ _ _ _ _ _ Ha Hs) as He.
    apply f64_sub in He. destruct He as [He _]. apply f64_div in He.
    fold (vnorm dx) in He. pose proof (f64_sqrt _ He) as Hd.
    pose proof (f64_add _ _ Hd) as [Hd1 Hd2]. pose proof (f64_add _ _ Hd1) as [Hd3 Hd4].
    pose proof (f64_mul _ _ Hd3) as [Fx _]. pose proof (f64_mul _ _ Hd4) as [Fy _]. pose proof (f64_mul _ _ Hd2) as [Fz _].
    assert (Rc : forall a b c e, fin64 (fadd (fsub a b) (fsub c e)) ->
       real (fadd (fsub a b) (fsub c e)) = rnd (rnd (real a - real b) + rnd (real c - real e))).
    { intros a1 b c e Hf. rewrite (real_add _ _ Hf). pose proof (f64_add _ _ Hf) as [F1 F2]. now rewrite (real_sub _ _ F1), (real_sub _ _ F2). }
    set (ra := V3 (real (vx dx)) (real (vy dx)) (real (vz dx))).
    pose proof uu_range as Hu. pose proof hh_range as Hh. pose proof gg_range as Hg. pose proof hh_gg as hg.
    assert (Hx : Rabs (vx ra - vx p) <= 3 * uu * (Rabs (real (vx XE)) + Rabs (real (vx XA)) + Rabs (real (vx UE)) + Rabs (real (vx UA))) + 4 * (hh * hh)).
    { cbn [vx ra p]. unfold dx. cbn [vadd vsub vmap2 vx]. rewrite (Rc _ _ _ _ Fx). apply comp_err. }
    assert (Hy : Rabs (vy ra - vy p) <= 3 * uu * (Rabs (real (vy XE)) + Rabs (real (vy XA)) + Rabs (real (vy UE)) + Rabs (real (vy UA))) + 4 * (hh * hh)).
    { cbn [vy ra p]. unfold dx. cbn [vadd vsub vmap2 vy]. rewrite (Rc _ _ _ _ Fy). apply comp_err. }
    assert (Hz : Rabs (vz ra - vz p) <= 3 * uu * (Rabs (real (vz XE)) + Rabs (real (vz XA)) + Rabs (real (vz UE)) + Rabs (real (vz UA))) + 4 * (hh * hh)).
    { cbn [vz ra p]. unfold dx. cbn [vadd vsub vmap2 vz]. rewrite (Rc _ _ _ _ Fz). apply comp_err. }
    assert (L0 : 0 < l) by lra.
    assert (W1 : uu * S <= uu * (K * l)) by (apply Rmult_le_compat_l; lra).
    assert (W2 : 12 * (hh * hh) <= uu * K * l).
    { assert (V1 : uu * gg <= uu * l) by (apply Rmult_le_compat_l; lra).
      assert (V2 : uu * l * 1 <= uu * l * K) by (apply Rmult_le_compat_l; nra). nra. }
    assert (Hsum : Rabs (vx ra - vx p) + Rabs (vy ra - vy p) + Rabs (vz ra - vz p) <= 4 * uu * K * l).
    { unfold S in W1. lra. }
    assert (Ed : vget p d = vx p /\ real (vget dx d) = vx ra \/ vget p d = vy p /\ real (vget dx d) = vy ra \/ vget p d = vz p /\ real (vget dx d) = vz ra).
    { destruct d as [|[|d]]; cbn; auto. }
    assert (Hpd : Rabs (vget p d) <= l).
    { assert (B : forall x y z, x * x + y * y + z * z = l * l -> Rabs x <= l).
      { intros x y z E. apply Rsqr_incr_0_var; [|lra]. rewrite <- Rsqr_abs. unfold Rsqr. rewrite <- E.
        pose proof (Rle_0_sqr y) as Y. pose proof (Rle_0_sqr z) as Z. unfold Rsqr in *. lra. }
      assert (El : l * l = vx p * vx p + vy p * vy p + vz p * vz p).
      { apply sqrt_sqrt. repeat apply Rplus_le_le_0_compat; apply Rle_0_sqr. }
      destruct Ed as [[-> _]|[[-> _]|[-> _]]]; [apply (B _ (vy p) (vz p))|apply (B _ (vx p) (vz p))|apply (B _ (vx p) (vy p))]; lra. }
    assert (Had : Rabs (real (vget dx d) - vget p d) <= 4 * uu * K * l).
    { pose proof (Rabs_pos (vx ra - vx p)). pose proof (Rabs_pos (vy ra - vy p)). pose proof (Rabs_pos (vz ra - vz p)).
      destruct Ed as [[-> ->]|[[-> ->]|[-> ->]]]; lra. }
    pose proof (dir_comp p ra l K eq_refl HK HuK Hl Hsum (real (vget dx d)) (vget p d) Had Hpd) as [Dl Dn].
    assert (En : real (vnorm dx) = rnd (sqrt (rnd (rnd (rnd (vx ra * vx ra) + rnd (vy ra * vy ra)) + rnd (vz ra * vz ra))))).
    { unfold vnorm. rewrite (real_sqrt _ He). unfold vdot. rewrite (real_add _ _ Hd), (real_add _ _ Hd1), (real_mul _ _ Hd2), (real_mul _ _ Hd3), (real_mul _ _ Hd4). reflexivity. }
    assert (En2 : vget (vdivs dx (vnorm dx)) d = fdiv (vget dx d) (vnorm dx)) by (destruct d as [|[|d]]; reflexivity).
    split.
    - change (fin64 (vget (vdivs dx (vnorm dx)) d)) in Hn. rewrite En2 in Hn.
      change (Rabs (real (vget (vdivs dx (vnorm dx)) d) - vget p d / l) <= 20 * uu * K). rewrite En2.
      rewrite (real_div _ _ He); [rewrite En; exact Dn| |exact Hn]. rewrite En. lra.
    - unfold Rdiv. rewrite Rabs_mult, (Rabs_pos_eq (/ l)) by (left; apply Rinv_0_lt_compat; lra).
      apply Rmult_le_reg_r with l; [lra|]. rewrite Rmult_assoc, Rinv_l by lra. lra.
  Qed.
End Member.

(** ** Sums *)
Lemma rsum_abs l : Rabs (rsum l) <= rsum (map Rabs l).
Proof. induction l as [|x l IH]; cbn; [rewrite Rabs_R0; lra|]. eapply Rle_trans; [apply Rabs_triang|]. unfold rsum in IH. lra. Qed.

Lemma pow_small k : uu * INR k <= / 2 -> 1 <= (1 + uu) ^ k <= 1 + 2 * INR k * uu.
Proof.
  pose proof uu_range as Hu. induction k as [|k IH]; intros H; [cbn; lra|]. rewrite S_INR in *. cbn [pow].
  destruct IH as [I1 I2]; [lra|]. pose proof (pos_INR k). split; [nra|].
  apply Rle_trans with ((1 + uu) * (1 + 2 * INR k * uu)); [apply Rmult_le_compat_l; lra|].
  assert (uu * (uu * INR k) <= uu * / 2) by (apply Rmult_le_compat_l; lra). nra.
Qed.

Lemma fold_sum : forall (ts : list b64) z, fin64 (fold_left fadd ts z) ->
  fin64 z /\ Forall fin64 ts /\
  Rabs (real (fold_left fadd ts z) - (real z + rsum (map real ts))) <=
  ((1 + uu) ^ length ts - 1) * (Rabs (real z) + rsum (map (fun t => Rabs (real t)) ts)) + INR (length ts) * (1 + uu) ^ length ts * (hh * hh).
Proof.
  pose proof uu_range as Hu. pose proof hh_range as Hh.
  induction ts as [|t ts IH]; intros z H.
  { cbn in H. split; [exact H|]. split; [constructor|]. cbn [fold_left length map rsum fold_right pow INR].
    replace (real z - (real z + 0)) with 0 by ring. rewrite Rabs_R0. lra. }
  cbn [fold_left] in H. destruct (IH _ H) as (F1 & F2 & E). destruct (f64_add _ _ F1) as [F3 F4].
  split; [exact F3|]. split; [constructor; assumption|]. cbn [fold_left length map]. rewrite S_INR. cbn [pow rsum fold_right].
  fold (rsum (map real ts)). fold (rsum (map (fun t => Rabs (real t)) ts)).
  pose proof (rnd_err' (real z + real t)) as R1. rewrite <- (real_add _ _ F1) in R1.
  set (z' := real (fadd z t)) in *. set (w := (1 + uu) ^ length ts) in *. set (T := rsum (map (fun t => Rabs (real t)) ts)) in *.
  assert (Hw : 1 <= w) by (apply pow_R1_Rle; lra).
  pose proof (Rabs_triang (real z) (real t)) as A1. set (v := Rabs (real z) + Rabs (real t)) in *.
  assert (V0 : 0 <= v) by (unfold v; pose proof (Rabs_pos (real z)); pose proof (Rabs_pos (real t)); lra).
  assert (R2 : Rabs (z' - (real z + real t)) <= uu * v + hh * hh).
  { assert (uu * Rabs (real z + real t) <= uu * v) by (apply Rmult_le_compat_l; lra). lra. }
  assert (R3 : Rabs z' <= (1 + uu) * v + hh * hh).
  { replace z' with ((z' - (real z + real t)) + (real z + real t)) by ring. eapply Rle_trans; [apply Rabs_triang|]. lra. }
  assert (R4 : (w - 1) * (Rabs z' + T) <= (w - 1) * ((1 + uu) * v + hh * hh + T)) by (apply Rmult_le_compat_l; lra).
  set (r := real (fold_left fadd ts (fadd z t))) in *. set (Q := rsum (map real ts)) in *.
  replace (r - (real z + (real t + Q))) with ((r - (z' + Q)) + (z' - (real z + real t))) by ring.
  eapply Rle_trans; [apply Rabs_triang|].
  assert (T0 : 0 <= T).
  { unfold T. clear. induction ts as [|t ts IH]; cbn; [lra|]. pose proof (Rabs_pos (real t)). unfold rsum in IH. lra. }
  assert (P : 0 <= hh * hh) by nra. pose proof (pos_INR (length ts)) as PN.
  assert (X1 : INR (length ts) * w * (hh * hh) <= INR (length ts) * ((1 + uu) * w) * (hh * hh)).
  { apply Rmult_le_compat_r; [exact P|]. apply Rmult_le_compat_l; [exact PN|]. nra. }
  assert (X2 : w * (hh * hh) <= (1 + uu) * w * (hh * hh)) by (apply Rmult_le_compat_r; [exact P|nra]).
  assert (X3 : (w - 1) * T <= ((1 + uu) * w - 1) * T) by (apply Rmult_le_compat_r; [exact T0|nra]).
  replace (((1 + uu) * w - 1) * (Rabs (real z) + (Rabs (real t) + T))) with (((1 + uu) * w - 1) * v + ((1 + uu) * w - 1) * T) by (unfold v; ring).
  replace ((INR (length ts) + 1) * ((1 + uu) * w) * (hh * hh)) with (INR (length ts) * ((1 + uu) * w) * (hh * hh) + (1 + uu) * w * (hh * hh)) by ring.
  replace ((w - 1) * ((1 + uu) * v + hh * hh + T)) with (((1 + uu) * w - 1) * v - uu * v + (w * (hh * hh) - hh * hh) + (w - 1) * T) in R4 by ring.
  lra.
Qed.

(** ** The contributions to one component of one node, any arithmetic *)
Section Terms.
  Context {F : Type} `{NF : Num F}.
  Variables (c : ctx F) (ms : list (member F)).
  Hypothesis Hok : truss_ok c ms.
  Notation pos l := (idx l (c_labels c)).

  Definition terms (p d : nat) (mq : member F * truss_q (F:=F)) : list F :=
    if (p =? pos (mb_b (fst mq)))%nat then [fmul (q_N (snd mq)) (vget (q_n (snd mq)) d)]
    else if (p =? pos (mb_a (fst mq)))%nat then [fmul (q_N (snd mq)) (fopp (vget (q_n (snd mq)) d))] else [].

  Lemma nth_radd' (r : list (v3 F)) i v p : (i < length r)%nat ->
    nth p (radd r i v) vzero = if (p =? i)%nat then vadd (nth i r vzero) v else nth p r vzero.
  Proof.
    intros Hi. unfold radd. rewrite nth_set_nth. destruct (Nat.ltb_spec i (length r)); [|lia]. now rewrite andb_true_r.
  Qed.

  Lemma fold_terms p d : forall l r, length r = length (c_labels c) -> (forall mq, In mq l -> In (fst mq) ms) ->
    vget (nth p (fold_left (r_member c) l r) vzero) d = fold_left fadd (flat_map (terms p d) l) (vget (nth p r vzero) d).
  Proof.
    induction l as [|mq l IH]; intros r Hl Hin; [reflexivity|]. cbn [fold_left flat_map]. rewrite fold_left_app.
    rewrite IH; [|rewrite r_member_length; exact Hl|intros; apply Hin; now right]. f_equal.
    destruct Hok as (ND & _ & _ & _ & Hm). destruct (Hm _ (Hin mq (or_introl eq_refl))) as (Ha & Hb & Hne).
    pose proof (idx_lt _ _ Ha) as La. pose proof (idx_lt _ _ Hb) as Lb.
    assert (Hpos : pos (mb_a (fst mq)) <> pos (mb_b (fst mq))).
    { intros E. apply Hne. apply idx_nth in Ha, Hb. rewrite E in Ha. congruence. }
    unfold r_member, terms. rewrite nth_radd' by (rewrite radd_length; lia).
    destruct (Nat.eqb_spec p (pos (mb_b (fst mq)))) as [->|Hp].
    - rewrite nth_radd' by lia. destruct (Nat.eqb_spec (pos (mb_b (fst mq))) (pos (mb_a (fst mq)))) as [E|_]; [congruence|].
      destruct d as [|[|d]]; reflexivity.
    - rewrite nth_radd' by lia. destruct (Nat.eqb_spec p (pos (mb_a (fst mq)))) as [->|Hp']; [|reflexivity].
      destruct d as [|[|d]]; reflexivity.
  Qed.
End Terms.

(** ** Nodal sum of an evaluation *)
Section Node.
  Variables (c : ctx b64) (ms : list (member b64)).
  Hypothesis Hok : truss_ok c ms.
  Variables (U U0 : list (v3 b64)) (p d : nat) (l : Z) (K : R).
  Hypothesis HlU : length U = length (c_labels c).
  Hypothesis Hp : nth_error (c_labels c) p = Some l.
  Hypothesis Hd : (d < 3)%nat.
  Hypothesis HK : 1 <= K.
  Hypothesis HuK : uu * K <= / 4096.
  Hypothesis Hfair : fair (c_labels c) (c_coords c) U l K ms.
  Notation pull := (pull64 (c_labels c) (c_coords c) U l d).
  Definition mN_of (mq : member b64 * truss_q (F:=b64)) : member b64 * b64 := (fst mq, q_N (snd mq)).

  Lemma two_gg : 2 * gg = powerRZ 2 (-399).
  Proof.
    rewrite <- gg_b. replace (powerRZ 2 (-399)) with (bpow radix2 (-399)) by (rewrite bpow_powerRZ; reflexivity).
    change 2 with (bpow radix2 1) at 1. rewrite <- bpow_plus. reflexivity.
  Qed.

  Lemma span_dir m q sv : In m ms -> member_q c U U0 sv m = Ok q -> (l = mb_a m \/ l = mb_b m) ->
    fin64 (q_N q) -> fin64 (vget (q_n q) d) ->
    let x := vget (span (c_labels c) (c_coords c) U m) d / len (span (c_labels c) (c_coords c) U m) in
    Rabs (real (vget (q_n q) d) - x) <= 20 * uu * K /\ Rabs x <= 1.
  Proof.
    intros Hm Hq Hend HN Hn x. destruct (Hfair m Hm Hend) as [H1 H2]. pose proof Hok as (ND & LX & _ & _ & Hms).
    destruct (Hms m Hm) as (Ia & Ib & _). unfold member_q in Hq.
    unfold x. unfold span, reach, at_node in *.
    rewrite !(row_of_nth _ _ _ _ ND Ia) in * by assumption. rewrite !(row_of_nth _ _ _ _ ND Ib) in * by assumption.
    rewrite <- two_gg in H1. refine (member_dir _ _ _ _ _ _ _ _ _ _ _ _ K Hq HN Hn _ H1 HK HuK).
    eapply Rle_trans; [|exact H2]. right. unfold size1. cbn [vmap vx vy vz]. ring.
  Qed.

  Lemma term_err m q sv t : In m ms -> member_q c U U0 sv m = Ok q -> In t (terms c p d (m, q)) -> fin64 t ->
    terms c p d (m, q) = [t] /\ (Z.eqb l (mb_b m) || Z.eqb l (mb_a m))%bool = true /\
    Rabs (real t - pull (m, q_N q)) <= 22 * uu * K * Rabs (real (q_N q)) + hh * hh /\
    Rabs (pull (m, q_N q)) <= Rabs (real (q_N q)).
  Proof.
    intros Hm Hq Ht Hf. pose proof Hok as (ND & _ & _ & _ & Hms). destruct (Hms m Hm) as (Ia & Ib & Hne).
    pose proof uu_range as Hu. pose proof hh_range as Hh.
    assert (G : forall y s, fin64 (fmul (q_N q) y) -> Rabs (real y - s) <= 20 * uu * K -> Rabs s <= 1 ->
      Rabs (real (fmul (q_N q) y) - real (q_N q) * s) <= 22 * uu * K * Rabs (real (q_N q)) + hh * hh /\
      Rabs (real (q_N q) * s) <= Rabs (real (q_N q))).
    { intros y s F E S1. rewrite (real_mul _ _ F). set (N := real (q_N q)). set (v := real y) in *.
      pose proof (Rabs_pos N) as PN. pose proof (rnd_err' (N * v)) as R1. split.
      - replace (rnd (N * v) - N * s) with ((rnd (N * v) - N * v) + N * (v - s)) by ring.
        eapply Rle_trans; [apply Rabs_triang|]. rewrite (Rabs_mult N (v - s)).
        assert (A1 : Rabs N * Rabs (v - s) <= Rabs N * (20 * uu * K)) by (apply Rmult_le_compat_l; assumption).
        assert (A2 : Rabs (N * v) <= Rabs N * (1 + 20 * uu * K)).
        { rewrite Rabs_mult. apply Rmult_le_compat_l; [exact PN|]. replace v with ((v - s) + s) by ring.
          eapply Rle_trans; [apply Rabs_triang|]. lra. }
        assert (A3 : uu * Rabs (N * v) <= uu * (Rabs N * (1 + 20 * uu * K))) by (apply Rmult_le_compat_l; lra).
        assert (A4 : uu * (Rabs N * (1 + 20 * uu * K)) <= 2 * uu * K * Rabs N).
        { replace (uu * (Rabs N * (1 + 20 * uu * K))) with (uu * (1 + 20 * (uu * K)) * Rabs N) by ring.
          apply Rmult_le_compat_r; [exact PN|]. replace (2 * uu * K) with (uu * (2 * K)) by ring. apply Rmult_le_compat_l; lra. }
        lra.
      - rewrite Rabs_mult. rewrite <- (Rmult_1_r (Rabs N)) at 2. apply Rmult_le_compat_l; assumption. }
    unfold terms in *. cbn [fst snd] in *. unfold pull64. cbn [fst snd].
    destruct (Nat.eqb_spec p (idx (mb_b m) (c_labels c))) as [Eb|Eb].
    - assert (El : l = mb_b m) by (rewrite Eb, (idx_nth _ _ Ib) in Hp; congruence).
      destruct Ht as [<-|[]]. destruct (f64_mul _ _ Hf) as [FN Fn].
      rewrite El, Z.eqb_refl. cbn [orb]. split; [reflexivity|]. split; [reflexivity|].
      destruct (span_dir m q sv Hm Hq (or_intror El) FN Fn) as [D1 D2]. apply G; assumption.
    - destruct (Nat.eqb_spec p (idx (mb_a m) (c_labels c))) as [Ea|Ea]; [|destruct Ht].
      assert (El : l = mb_a m) by (rewrite Ea, (idx_nth _ _ Ia) in Hp; congruence).
      destruct Ht as [<-|[]]. destruct (f64_mul _ _ Hf) as [FN Fn]. pose proof (f64_opp _ Fn) as Fn'.
      destruct (Z.eqb_spec l (mb_b m)) as [E|_]; [congruence|]. rewrite El, Z.eqb_refl. cbn [orb]. split; [reflexivity|]. split; [reflexivity|].
      destruct (span_dir m q sv Hm Hq (or_introl El) FN Fn') as [D1 D2].
      rewrite Ropp_mult_distr_r. apply G; [exact Hf| |rewrite Rabs_Ropp; exact D2].
      rewrite real_opp. replace (- real (vget (q_n q) d) - - _) with (- (real (vget (q_n q) d) -
        vget (span (c_labels c) (c_coords c) U m) d / len (span (c_labels c) (c_coords c) U m))) by ring. rewrite Rabs_Ropp. exact D1.
  Qed.

  Lemma terms_none m q : In m ms -> terms c p d (m, q) = [] -> (Z.eqb l (mb_b m) || Z.eqb l (mb_a m))%bool = false.
  Proof.
    intros Hm. pose proof Hok as (ND & _ & _ & _ & Hms). destruct (Hms m Hm) as (Ia & Ib & Hne).
    unfold terms. cbn [fst snd].
    destruct (Nat.eqb_spec p (idx (mb_b m) (c_labels c))) as [Eb|Eb]; [discriminate|].
    destruct (Nat.eqb_spec p (idx (mb_a m) (c_labels c))) as [Ea|Ea]; [discriminate|]. intros _.
    apply orb_false_iff. split; apply Z.eqb_neq; intros ->; [apply Eb|apply Ea]; symmetry; apply idx_of_nth; assumption.
  Qed.

  Notation force_at := (fun L => rsum (map (fun mN => Rabs (real (snd mN))) (members_at l (map mN_of L)))).
  Lemma sum_terms : forall L, (forall m q, In (m, q) L -> In m ms /\ exists sv, member_q c U U0 sv m = Ok q) ->
    Forall fin64 (flat_map (terms c p d) L) ->
    length (flat_map (terms c p d) L) = length (members_at l (map mN_of L)) /\
    Rabs (rsum (map real (flat_map (terms c p d) L)) - rsum (map pull (map mN_of L))) <=
      22 * uu * K * force_at L + INR (length (flat_map (terms c p d) L)) * (hh * hh) /\
    rsum (map (fun t => Rabs (real t)) (flat_map (terms c p d) L)) <=
      (1 + 22 * uu * K) * force_at L + INR (length (flat_map (terms c p d) L)) * (hh * hh) /\
    Rabs (rsum (map pull (map mN_of L))) <= force_at L.
  Proof.
    induction L as [|[m q] L IH]; intros HL HF.
    { cbn. split; [reflexivity|]. replace (0 - 0) with 0 by ring. rewrite Rabs_R0. lra. }
    destruct (HL m q (or_introl eq_refl)) as (Hm & sv & Hq).
    cbn [flat_map] in HF. apply Forall_app in HF. destruct HF as [HF1 HF2].
    destruct (IH (fun m' q' H => HL m' q' (or_intror H)) HF2) as (I1 & I2 & I3 & I4). clear IH.
    cbn [flat_map map]. unfold members_at in *. cbn [filter]. change (fst (mN_of (m, q))) with m.
    destruct (terms c p d (m, q)) as [|t ts] eqn:Et.
    - rewrite (terms_none _ _ Hm Et). cbn [app].
      assert (P0 : pull (mN_of (m, q)) = 0).
      { pose proof (terms_none _ _ Hm Et) as E. apply orb_false_iff in E. unfold pull64. cbn [mN_of fst snd]. destruct E as [-> ->]. reflexivity. }
      cbn [rsum fold_right]. rewrite P0, Rplus_0_l. auto.
    - assert (Ft : fin64 t) by (apply Forall_inv in HF1; exact HF1).
      destruct (term_err m q sv t Hm Hq ltac:(rewrite Et; now left) Ft) as (T1 & T2 & T3 & T4).
      rewrite Et in T1. injection T1 as ->. rewrite T2. cbn [app length map rsum fold_right]. rewrite S_INR.
      change (fold_right Rplus 0) with rsum. change (snd (mN_of (m, q))) with (q_N q). change (mN_of (m, q)) with (m, q_N q).
      set (A := rsum (map real (flat_map (terms c p d) L))) in *. set (B := rsum (map pull (map mN_of L))) in *.
      set (W := rsum (map (fun mN => Rabs (real (snd mN))) (filter _ (map mN_of L)))) in *.
      set (n := INR (length (flat_map (terms c p d) L))) in *. set (N := Rabs (real (q_N q))) in *.
      split; [now rewrite I1|]. split; [|split].
      + replace (real t + A - (pull (m, q_N q) + B)) with ((real t - pull (m, q_N q)) + (A - B)) by ring.
        eapply Rle_trans; [apply Rabs_triang|]. lra.
      + assert (Rabs (real t) <= Rabs (real t - pull (m, q_N q)) + Rabs (pull (m, q_N q))).
        { replace (real t) with ((real t - pull (m, q_N q)) + pull (m, q_N q)) at 1 by ring. apply Rabs_triang. }
        lra.
      + eapply Rle_trans; [apply Rabs_triang|]. lra.
  Qed.

  Lemma node_sum V V0 w an an' gr :
    sizes_ok c ms an -> equilibrium c V V0 w an = Ok (an', gr) -> a_U an' = U -> a_U0 an' = U0 ->
    fin64 (nth (3 * p + d) (vflat (a_r an')) f0) ->
    let mNs := combine ms (a_force an') in let here := members_at l mNs in
    let k := INR (length here) in let W := rsum (map (fun mN => Rabs (real (snd mN))) here) in
    uu * k <= / 4096 ->
    Rabs (real (nth (3 * p + d) (vflat (a_r an')) f0) - rsum (map pull mNs)) <= (3 * k + 22 * K) * uu * W + 4 * k * (hh * hh) /\
    Rabs (rsum (map pull mNs)) <= W.
  Proof.
    intros Hsz HE EU EU0 Hf mNs here k W Hk.
    destruct (gequilibrium_inv _ _ _ _ _ _ _ _ Hok Hsz HE) as (an1 & qs & g & HP & Hsz1 & Hq & Ean & _ & _). cbv zeta in *.
    pose proof (gequilibrium_sizes _ _ _ _ _ _ _ _ Hok Hsz HE) as Hsz'.
    pose proof (quants_length _ _ _ _ _ _ _ Hq) as Lq. rewrite EU, EU0 in Hq.
    assert (Er : a_r an' = fold_left (r_member c) (combine ms qs) (a_r an1)).
    { rewrite Ean. cbn [a_r set_g]. apply loop_r. exact Lq. }
    assert (Ez : a_r an1 = map (fun _ => vzero) (a_r an)).
    { destruct (gprepare_frame _ _ _ _ _ _ _ _ HP) as (_ & _ & _ & _ & _ & _ & Z). now apply Z. }
    assert (E1 : a_force an' = map q_N qs).
    { rewrite Ean. cbn [a_force set_g]. apply loop_force; [exact Lq|apply Hsz1]. }
    assert (EM : mNs = map mN_of (combine ms qs)).
    { unfold mNs. rewrite E1. clear. revert qs. induction ms as [|m l IH]; intros [|q qs]; try reflexivity. cbn [combine map]. now rewrite IH. }
    assert (Hpl : (p < length (c_labels c))%nat) by (apply nth_error_Some; congruence).
    assert (G : nth (3 * p + d) (vflat (a_r an')) f0 = vget (nth p (a_r an') vzero) d).
    { apply nth_error_nth. destruct (nth_error (a_r an') p) as [v|] eqn:E; [|apply nth_error_None in E; pose proof Hsz' as (_ & _ & LR & _); lia].
      rewrite (vflat_nth3 _ _ _ _ Hd E). f_equal. f_equal. symmetry. now apply nth_error_nth. }
    assert (Z0 : vget (nth p (a_r an1) vzero) d = f0).
    { rewrite Ez. replace (nth p (map (fun _ : v3 b64 => vzero) (a_r an)) vzero) with (vzero (F:=b64)).
      - destruct d as [|[|]]; reflexivity.
      - generalize p. clear. induction (a_r an) as [|v r IH]; intros [|k]; cbn; auto. }
    assert (EV : nth (3 * p + d) (vflat (a_r an')) f0 = fold_left fadd (flat_map (terms c p d) (combine ms qs)) f0).
    { rewrite G, Er, (fold_terms c ms Hok), Z0; [reflexivity|apply Hsz1|intros [m q] H; now apply in_combine_l in H]. }
    rewrite EV in *.
    destruct (fold_sum _ _ Hf) as (_ & HF & HB).
    destruct (sum_terms (combine ms qs)) as (S1 & S2 & S3 & S4); [|exact HF|].
    { intros m q H. split; [now apply in_combine_l in H|]. apply In_nth_error in H. destruct H as [i Hi].
      assert (Him : nth_error ms i = Some m /\ nth_error qs i = Some q).
      { clear - Hi. revert i qs Hi. induction ms as [|x ls IH]; intros [|i] [|y qs] H; try discriminate; cbn in *; [injection H as <- <-; auto|now apply IH]. }
      destruct Him as [H1 H2]. destruct (quants_nth _ _ _ _ _ _ _ Hq i m H1) as (q' & H3 & H4). exists (state_row c an (0 + i)). congruence. }
    rewrite <- EM in *. fold here in S1, S2, S3, S4. fold W in S2, S3, S4. rewrite S1 in *. fold k in S2, S3, HB.
    split; [|exact S4].
    pose proof uu_range as Hu. pose proof hh_range as Hh.
    assert (Ek : uu * INR (length here) <= / 2) by (fold k; lra). pose proof (pow_small _ Ek) as [P1 P2]. fold k in P2.
    set (w1 := (1 + uu) ^ length here) in *.
    replace (real f0) with 0 in HB by reflexivity. rewrite Rabs_R0, !Rplus_0_l in HB.
    set (T := rsum (map (fun t => Rabs (real t)) (flat_map (terms c p d) (combine ms qs)))) in *.
    set (A := rsum (map real (flat_map (terms c p d) (combine ms qs)))) in *. set (B := rsum (map pull mNs)) in *.
    set (r := real (fold_left fadd (flat_map (terms c p d) (combine ms qs)) f0)) in *.
    assert (K0 : 0 <= k) by apply pos_INR. assert (W0 : 0 <= W) by (pose proof (Rabs_pos B); lra).
    assert (e0 : 0 <= hh * hh) by nra.
    assert (U1 : (1 + 22 * uu * K) * W <= 9 / 8 * W) by (apply Rmult_le_compat_r; lra).
    assert (U2 : T <= 9 / 8 * W + k * (hh * hh)) by lra.
    assert (T0 : 0 <= 9 / 8 * W + k * (hh * hh)) by nra.
    assert (U3 : (w1 - 1) * T <= 2 * k * uu * (9 / 8 * W + k * (hh * hh))).
    { apply Rle_trans with ((w1 - 1) * (9 / 8 * W + k * (hh * hh))); [apply Rmult_le_compat_l; lra|]. apply Rmult_le_compat_r; lra. }
    assert (U4 : k * w1 * (hh * hh) <= 2 * (k * (hh * hh))).
    { assert (w1 <= 2) by lra. assert (0 <= k * (hh * hh)) by nra. nra. }
    assert (U5 : 2 * k * uu * (k * (hh * hh)) <= k * (hh * hh)).
    { replace (2 * k * uu * (k * (hh * hh))) with (2 * (uu * k) * (k * (hh * hh))) by ring. assert (0 <= k * (hh * hh)) by nra. nra. }
    replace (r - B) with ((r - A) + (A - B)) by ring. eapply Rle_trans; [apply Rabs_triang|].
    assert (U6 : 0 <= k * uu * W) by (apply Rmult_le_pos; [nra|exact W0]).
    replace (2 * k * uu * (9 / 8 * W + k * (hh * hh))) with (9 / 4 * (k * uu * W) + 2 * k * uu * (k * (hh * hh))) in U3 by field.
    replace ((3 * k + 22 * K) * uu * W) with (3 * (k * uu * W) + 22 * uu * K * W) by ring. lra.
  Qed.
End Node.

Lemma pw z : powerRZ 2 z = bpow radix2 z.
Proof. now rewrite bpow_powerRZ. Qed.

Lemma node_record c ms n K x0 x (a : analysis b64) p l d :
  truss_ok c ms -> (0 <= n)%Z -> residual_is a -> in_balance (pow10neg n) x0 x a -> sizes_ok c ms a ->
  (exists an1 an2 gr, sizes_ok c ms an1 /\ equilibrium c x x0 true an1 = Ok (an2, gr) /\ a = recorded x an2) ->
  nth_error (c_labels c) p = Some l -> (d < 3)%nat -> In (3 * p + d)%nat (a_DOF1 a) ->
  1 <= K -> INR (length (members_at l (combine ms (a_force a)))) + K <= powerRZ 2 30 ->
  fair (c_labels c) (c_coords c) (a_U a) l K ms ->
  node_balance n K (c_labels c) (c_coords c) ms a l d
    (real (nth (3 * p + d) (concat (a_fconst a)) f0)) (real (nth (3 * p + d) (concat (a_forces a)) f0)).
Proof.
  intros Htr Hn Hres Hbal Hsz (an1 & an2 & gr & Hs1 & HE & Ea) Hp Hd Hin HK Hk Hfair.
  destruct (accepted64 n x0 x a Hn Hres Hbal) as [HB _]. destruct (HB _ Hin) as (Fr & Fc & Fl & Ff & HD). clear HB.
  set (k := INR (length (members_at l (combine ms (a_force a))))) in *.
  pose proof uu_range as Hu. pose proof hh_range as Hh. assert (K0 : 0 <= k) by apply pos_INR.
  assert (Hu30 : uu * powerRZ 2 30 <= / 8388608).
  { rewrite <- uu_b, (pw 30), <- bpow_plus. right. reflexivity. }
  assert (Huk : uu * (k + K) <= / 8388608) by (eapply Rle_trans; [apply Rmult_le_compat_l; [lra|exact Hk]|exact Hu30]).
  assert (Huk1 : uu * k <= / 4096) by nra. assert (HuK : uu * K <= / 4096) by nra.
  assert (LU : length (a_U a) = length (c_labels c)) by apply Hsz.
  destruct (node_sum c ms Htr (a_U a) (a_U0 a) p d l K LU Hp Hd HK HuK Hfair x x0 true an1 an2 gr Hs1 HE) as [S1 S2].
  { now rewrite Ea. } { now rewrite Ea. } { rewrite Ea in Fr. exact Fr. }
  { replace (a_force an2) with (a_force a) by now rewrite Ea. exact Huk1. }
  replace (a_force an2) with (a_force a) in S1, S2 by now rewrite Ea.
  replace (a_r an2) with (a_r a) in S1 by now rewrite Ea.
  unfold node_balance. fold k in S1 |- *. fold uu. unfold digits in HD. fold uu in HD.
  set (r := real (nth (3 * p + d) (vflat (a_r a)) f0)) in *. set (B := rsum (map _ (combine ms (a_force a)))) in *.
  set (W := rsum (map _ (members_at l (combine ms (a_force a))))) in *.
  set (cc := real (nth (3 * p + d) (concat (a_fconst a)) f0)) in *. set (lf := real (a_lpf a) * real (nth (3 * p + d) (concat (a_forces a)) f0)) in *.
  set (D := (1 + powerRZ 2 (-48)) * powerRZ 10 (- n)) in *.
  replace (powerRZ 2 (-51)) with (4 * uu).
  2: { rewrite <- uu_b. change 4 with (bpow radix2 2). rewrite <- bpow_plus, bpow_powerRZ. reflexivity. }
  assert (W0 : 0 <= W) by (pose proof (Rabs_pos B); lra).
  assert (E1 : powerRZ 2 (-500) + 8 * k * (hh * hh) <= powerRZ 2 (-400)).
  { assert (k <= powerRZ 2 30) by lra.
    assert (A : 8 * k * (hh * hh) <= powerRZ 2 (-500)).
    { apply Rle_trans with (8 * powerRZ 2 30 * (hh * hh)); [assert (0 <= hh * hh) by nra; nra|].
      rewrite <- hh_b, (pw 30), (pw (-500)). change 8 with (bpow radix2 3). rewrite <- !bpow_plus. apply bpow_le. lia. }
    assert (A' : powerRZ 2 (-500) + powerRZ 2 (-500) = powerRZ 2 (-499)).
    { rewrite (pw (-500)), (pw (-499)). change (-499)%Z with (1 + -500)%Z. rewrite bpow_plus. change (bpow radix2 1) with 2. ring. }
    assert (A'' : powerRZ 2 (-499) <= powerRZ 2 (-400)).
    { rewrite (pw (-499)), (pw (-400)). apply bpow_le. lia. }
    lra. }
  assert (e0 : 0 <= 4 * k * (hh * hh)) by (assert (0 <= hh * hh) by nra; nra).
  assert (R1 : Rabs r <= (1 + (3 * k + 22 * K) * uu) * W + 4 * k * (hh * hh)).
  { replace r with ((r - B) + B) by ring. eapply Rle_trans; [apply Rabs_triang|]. lra. }
  assert (R2 : (1 + (3 * k + 22 * K) * uu) * W <= 2 * W) by (apply Rmult_le_compat_r; nra).
  assert (R3 : uu * Rabs r <= uu * (2 * W + 4 * k * (hh * hh))) by (apply Rmult_le_compat_l; lra).
  assert (R4 : uu * (4 * k * (hh * hh)) <= 4 * k * (hh * hh)) by nra.
  assert (R5 : (3 * k + 22 * K) * uu * W + 2 * uu * W <= (k + 8 * K) * (4 * uu) * W).
  { replace ((3 * k + 22 * K) * uu * W + 2 * uu * W) with ((3 * k + 22 * K + 2) * (uu * W)) by ring.
    replace ((k + 8 * K) * (4 * uu) * W) with ((4 * k + 32 * K) * (uu * W)) by ring.
    apply Rmult_le_compat_r; [nra|lra]. }
  replace (- B + cc + lf) with ((- r + cc + lf) + (r - B)) by ring.
  eapply Rle_trans; [apply Rabs_triang|]. lra.
Qed.
