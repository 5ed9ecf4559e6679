(** * Small callbacks for examples about pathfollow in exact arithmetic

    One unknown u and the load factor l; residual l - u, stiffness 1, so the
    path is u = l; or a residual that never vanishes. *)
From Coq Require Import List ZArith Bool Arith Lia Reals Lra.
Import ListNotations.
From Verif Require Import Num NumR Vec Analysis Solver ListFacts SpecSolver.
Local Open Scope R_scope.

Definition toy_an : analysis R :=
  An 1 [] [] [] [] [] [] [] [] [] [] [0] [0; 0] 0 None [] 0 [] [] [1] [] [].
Definition toy_g : gfun R := fun V _ _ an =>
  match V with [u; l] => Ok (an, [l - u]) | _ => Err ValueError end.
Definition toy_bad : gfun R := fun V _ _ an => Ok (an, [1]).
Definition toy_k : kfun R := fun U an => Ok (an, [[1]]).
(** Exact solution for the matrix [[1, -1], [0, 1]]. *)
Definition toy_solve (Km : list (list R)) (b : list R) : list R :=
  match b with [b1; b2] => [b1 + b2; b2] | _ => b end.
Definition toy_sort (l : list R) : list nat := seq 0 (length l).
(** control by the LPF (component 2), locked *)
Definition toy_cfg (incs cycl : Z) (sc : bool) (maxfac minfac dxtol : R) : pfcfg R :=
  PfCfg true None incs 2 cycl (1/10) 10 sc maxfac minfac 4 (1/2) dxtol.

Lemma toy_solve_exact b1 b2 x1 x2 : toy_solve [[1; -1]; [0; 1]] [b1; b2] = [x1; x2] ->
  1 * x1 + -1 * x2 = b1 /\ 0 * x1 + 1 * x2 = b2.
Proof. cbn. intros H. injection H as <- <-. split; ring. Qed.

Lemma toy_no_timeout : (forall V V0 w an, toy_g V V0 w an <> Timeout) /\ (forall U an, toy_k U an <> Timeout).
Proof.
  split; [|discriminate]. intros V V0 w an. unfold toy_g.
  destruct V as [|u [|l [|? ?]]]; discriminate.
Qed.

Lemma py2 {A} (a b : A) : py_get [a; b] (Z.abs 2 - 1) = Ok b.
Proof. reflexivity. Qed.
Lemma py1 {A} (a b : A) : py_get [a; b] 0 = Ok a.
Proof. reflexivity. Qed.

(** Newton on u = l from [a; b]: one iteration leads to [m; m]. *)
Lemma toy_newton V0 m a b an :
  a_f0red an = [1] -> (m - a) ^ 2 + (m - b) ^ 2 < 100 ->
  newton toy_solve (f_ext toy_g V0 2 m false) (dfdx toy_k 2) [a; b] 2 (1/10) 10 an
  = Ok (set_Kmod [[1; -1]; [0; 1]] (set_j 2 an), NOut [m; m] true 1 0 (sqrt ((m - a) ^ 2 + (m - b) ^ 2))).
Proof.
  intros Hf Hd. unfold newton. change (Z.to_nat 2) with 2%nat. cbn [newton_loop].
  unfold dfdx at 1. cbn [length ctrl_row py_pos bind toy_k removelast].
  change (ctrl_row 2 2) with (@Ok (list R) [0; 1]). cbn [bind].
  change (a_f0red (set_j 2 an)) with (a_f0red an). rewrite Hf.
  unfold hstack_col. cbn [length map Nat.eqb map2 app bind forallb andb].
  unfold f_ext at 1, toy_g at 1. cbn [bind]. rewrite py2. cbn [bind map app].
  unfold toy_solve at 1. numR.
  unfold bcast2 at 1. cbn [length Nat.eqb map2 bind].
  unfold f_ext at 1, toy_g at 1. cbn [bind]. rewrite py2. cbn [bind map app].
  unfold toy_solve. numR.
  replace (a + (- - (b - a) + - (b - m))) with m by ring.
  replace (b + - (b - m)) with m by ring.
  replace (- (m - m)) with 0 by ring. replace (m - m) with 0 by ring.
  replace (- - (b - a) + - (b - m)) with (m - a) by ring. replace (- (b - m)) with (m - b) by ring.
  replace (fnorm [0; 0]) with 0.
  2:{ unfold fnorm, fdot. numR. replace (0 * 0 + (0 * 0 + 0)) with 0 by ring. now rewrite sqrt_0. }
  replace (fnorm [m - a; m - b]) with (sqrt ((m - a) ^ 2 + (m - b) ^ 2)).
  2:{ unfold fnorm, fdot. numR. f_equal. ring. }
  assert (sqrt ((m - a) ^ 2 + (m - b) ^ 2) < 10).
  { replace 10 with (sqrt (10 ^ 2)) by (rewrite sqrt_pow2; lra). pose proof (pow2_ge_0 (m - a)). pose proof (pow2_ge_0 (m - b)). apply sqrt_lt_1; lra. }
  replace (Rltb 0 (1 / 10)) with true by (symmetry; apply Rltb_true; lra).
  replace (Rltb (sqrt _) 10) with true by (symmetry; apply Rltb_true; lra).
  cbn [andb]. replace (- (1)) with (-1) by ring. reflexivity.
Qed.

(** A residual that stays 1 never converges. *)
Lemma toy_never V0 m a b an :
  a_f0red an = [1] ->
  exists an' x y u v, newton toy_solve (f_ext toy_bad V0 2 m false) (dfdx toy_k 2) [a; b] 2 (1/10) 10 an
  = Ok (an', NOut [x; y] false 2 u v) /\ a_f0red an' = [1].
Proof.
  intros Hf.
  assert (Hn : forall y, Rltb (fnorm [-1; y]) (1/10) = false).
  { intros y. apply Rltb_false. unfold fnorm, fdot. numR.
    apply Rle_trans with 1; [lra|]. rewrite <- sqrt_1. apply sqrt_le_1; nra. }
  unfold newton. change (Z.to_nat 2) with 2%nat. cbn [newton_loop].
  unfold dfdx at 1. cbn [length ctrl_row py_pos bind toy_k removelast].
  change (ctrl_row 2 2) with (@Ok (list R) [0; 1]). cbn [bind].
  change (a_f0red (set_j 2 an)) with (a_f0red an). rewrite Hf.
  unfold hstack_col. cbn [length map Nat.eqb map2 app bind forallb andb].
  unfold f_ext at 1, toy_bad at 1. cbn [bind]. rewrite py2. cbn [bind map app].
  unfold toy_solve at 1. numR. unfold bcast2 at 1. cbn [length Nat.eqb map2 bind].
  unfold f_ext at 1, toy_bad at 1. cbn [bind]. rewrite py2. cbn [bind map app]. numR.
  replace (- (1)) with (-1) by ring. rewrite Hn. cbn [andb].
  unfold dfdx at 1. cbn [length ctrl_row py_pos bind toy_k removelast].
  change (ctrl_row 2 2) with (@Ok (list R) [0; 1]). cbn [bind].
  cbn [a_f0red set_j set_Kmod]. rewrite Hf. cbn [length map Nat.eqb map2 app bind forallb andb].
  unfold f_ext at 1, toy_bad at 1. cbn [bind]. rewrite py2. cbn [bind map app].
  numR. unfold toy_solve at 1. numR. unfold bcast2 at 1. cbn [length Nat.eqb map2 bind].
  unfold f_ext at 1, toy_bad at 1. cbn [bind]. rewrite py2. cbn [bind map app]. numR.
  replace (- (1)) with (-1) by ring. rewrite Hn. cbn [andb].
  eexists _, _, _, _, _. split; [reflexivity|]. exact Hf.
Qed.

Section Pass.
  Variables (incs cycl : Z) (sc : bool) (maxfac minfac dxtol : R) (d0 : list R).
  Notation cfg := (toy_cfg incs cycl sc maxfac minfac dxtol).

  Definition toy_next (c : R) (an : analysis R) : analysis R :=
    set_dVmax [c; c] (set_Kmod [[1; -1]; [0; 1]] (set_j 2 an)).

  Definition toy_control (ok : bool) (n : Z) (c : R) (z b : Z) : res (list R * Z * Z * bool) :=
    if sc then dxmax_control cfg [c; c] d0 2 2 z ok b n 2 else Ok ([c; c], z, b, false).

  Lemma toy_pass a c an z b out fuel :
    a_f0red an = [1] -> 0 < c < 7 ->
    recycle toy_solve toy_sort toy_g toy_k cfg [a; a] d0 None (S fuel) (Rc an z 2 [c; c] b 0 out) =
    (' (dxmax', z', b', changed) <- toy_control true 1 c z b ;;
     if Rleb 1 dxtol then
       Ok (Rc (set_j 2 (toy_next c an)) z' 2 dxmax' (b' + 1)%Z 0 out, [a + c; a + c], false)
     else if (z' + 1 =? cycl)%Z then
       Ok (Rc (toy_next c an) z' 2 dxmax' b' 0 (out ++ [MError1]), [a + c; a + c], true)
     else recycle toy_solve toy_sort toy_g toy_k cfg [a; a] d0 None fuel
            (Rc (toy_next c an) (z' + 1)%Z 2 dxmax' b' 0 (out ++ [MRecycle]))).
  Proof.
    intros Hf Hc. cbn [recycle rc_j rc_dxmax rc_z rc_an rc_b rc_npre rc_out]. rewrite !py2. cbn [bind].
    cbn [cf_nfev cf_ftol cf_xtol cf_jfixed cf_stepcontrol cf_dxtol cf_cycl toy_cfg].
    change (2 - 0)%Z with 2%Z.
    rewrite toy_newton; [|exact Hf|numR; change (IZR (Z.sgn 2)) with 1; nra].
    cbn [bind no_x no_success no_n]. numR. change (IZR (Z.sgn 2)) with 1.
    replace (a + c * 1) with (a + c) by ring.
    unfold bcast2 at 1. cbn [length Nat.eqb map2 bind]. numR.
    replace (a + c - a) with c by ring.
    unfold biggest at 1. unfold bcast2 at 1. cbn [length Nat.eqb map2 bind]. numR.
    replace (c / c) with 1 by (field; lra).
    unfold toy_sort at 1. cbn [map length seq]. change (py_get [0%nat; 1%nat] (-1)) with (@Ok nat 1%nat).
    cbn [bind nth_error Nat.ltb Nat.leb]. unfold bcast2. cbn [length Nat.eqb map2 bind].
    rewrite py2. cbn [bind]. numR.
    replace (c / c) with 1 by (field; lra). rewrite Rabs_R1, andb_true_r.
    fold (toy_control true 1 c z b).
    destruct (toy_control true 1 c z b) as [[[[dxmax' z'] b'] changed]|e|]; cbn [bind]; reflexivity.
  Qed.

  Lemma toy_pass_bad a a' c an z b out fuel :
    a_f0red an = [1] -> 0 < c ->
    exists an' x y, a_f0red an' = [1] /\ a_dVmax an' = [c; c] /\
    recycle toy_solve toy_sort toy_bad toy_k cfg [a; a'] d0 None (S fuel) (Rc an z 2 [c; c] b 0 out) =
    (' (dxmax', z', b', changed) <- toy_control false 2 c z b ;;
     if (z' + 1 =? cycl)%Z then
       Ok (Rc an' z' 2 dxmax' b' 0 (out ++ [MError1]), [x; y], true)
     else if changed then
       recycle toy_solve toy_sort toy_bad toy_k cfg [a; a'] d0 None fuel
            (Rc an' (z' + 1)%Z 2 dxmax' b' 0 (out ++ [MRecycle]))
     else Ok (Rc an' z' 2 dxmax' b' 0 (out ++ [MError2]), [x; y], true)).
  Proof.
    intros Hf Hc.
    destruct (toy_never [a; a'] (a' + c * 1) a a' an Hf) as (an1 & x & y & u & v & Hn & Hf1).
    exists (set_dVmax [c; c] an1), x, y. split; [exact Hf1|]. split; [reflexivity|].
    cbn [recycle rc_j rc_dxmax rc_z rc_an rc_b rc_npre rc_out]. rewrite !py2. cbn [bind].
    cbn [cf_nfev cf_ftol cf_xtol cf_jfixed cf_stepcontrol cf_dxtol cf_cycl toy_cfg].
    change (2 - 0)%Z with 2%Z. numR. change (IZR (Z.sgn 2)) with 1. rewrite Hn.
    cbn [bind no_x no_success no_n].
    unfold bcast2 at 1. cbn [length Nat.eqb map2 bind]. numR.
    unfold biggest at 1. unfold bcast2 at 1. cbn [length Nat.eqb map2 bind]. numR.
    unfold toy_sort at 1. cbn [map length seq]. change (py_get [0%nat; 1%nat] (-1)) with (@Ok nat 1%nat).
    cbn [bind nth_error Nat.ltb Nat.leb]. unfold bcast2. cbn [length Nat.eqb map2 bind].
    rewrite py2. cbn [bind]. rewrite andb_false_r.
    fold (toy_control false 2 c z b).
    destruct (toy_control false 2 c z b) as [[[[dxmax' z'] b'] changed]|e|]; cbn [bind]; try reflexivity.
    change (2 =? 2)%Z with true. cbn [andb negb].
    destruct (z' + 1 =? cycl)%Z; [reflexivity|]. destruct changed; reflexivity.
  Qed.
End Pass.

Lemma toy_start g incs cycl sc maxfac minfac dxtol fuel :
  pathfollow toy_solve toy_sort g toy_k [0] toy_an (DxVec [1; 1]) (Some 2%Z) false
             (toy_cfg incs cycl sc maxfac minfac dxtol) fuel =
  increments toy_solve toy_sort g toy_k (toy_cfg incs cycl sc maxfac minfac dxtol) [1; 1] fuel
             (Z.to_nat incs) (Pf toy_an [0; 0] 2 false [1; 1] 4 [([0; 0], toy_an)] []).
Proof.
  assert (E : expand_dxmax 2 (DxVec [1; 1]) = [1; 1]).
  { unfold expand_dxmax. cbn. now rewrite Rmult_1_r. }
  unfold pathfollow. cbn [toy_cfg cf_jfixed negb length app]. rewrite E. reflexivity.
Qed.

Lemma toy_incr g incs cycl sc maxfac minfac dxtol fuel s :
  ps_jpre s = false ->
  increment toy_solve toy_sort g toy_k (toy_cfg incs cycl sc maxfac minfac dxtol) [1; 1] fuel s =
  (' (r, x, stop) <- recycle toy_solve toy_sort g toy_k (toy_cfg incs cycl sc maxfac minfac dxtol)
        (ps_x s) [1; 1] None fuel (Rc (ps_an s) 0%Z (ps_j s) (ps_dxmax s) (ps_b s) 0%Z (ps_out s ++ [MIncr])) ;;
   Ok (Pf (recorded x (rc_an r)) x (rc_j r) false (rc_dxmax r) (rc_b r)
          (ps_res s ++ [(x, recorded x (rc_an r))]) (rc_out r), stop)).
Proof. intros H. unfold increment. rewrite H. reflexivity. Qed.
