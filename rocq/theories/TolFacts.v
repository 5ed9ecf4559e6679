(** * The tolerances [10**-n] as real numbers *)
From Coq Require Import ZArith Reals Lra Lia.
From Verif Require Import Num NumR.
Local Open Scope R_scope.

Lemma powerRZ_ten k : (0 <= k)%Z -> IZR (10 ^ k) = powerRZ 10 k.
Proof.
  intros H. rewrite <- (Z2Nat.id k H) at 1 2. generalize (Z.to_nat k). clear. intros n.
  rewrite <- pow_powerRZ. induction n as [|n IH]; [reflexivity|].
  rewrite Nat2Z.inj_succ, Z.pow_succ_r, mult_IZR, IH by lia. reflexivity.
Qed.

Lemma pow10neg_R n : @pow10neg R _ n = powerRZ 10 (- n).
Proof.
  unfold pow10neg. destruct (Z.leb_spec 0 n) as [H|H].
  - change (1 / IZR (10 ^ n) = powerRZ 10 (- n)). rewrite (powerRZ_ten n H). unfold Rdiv. rewrite Rmult_1_l. symmetry. apply powerRZ_neg'.
  - change (IZR (10 ^ (- n)) = powerRZ 10 (- n)). apply powerRZ_ten. lia.
Qed.
