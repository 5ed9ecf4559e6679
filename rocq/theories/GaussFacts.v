(** * Gaussian elimination with partial pivoting solves every nonsingular system (exact arithmetic) *)
From Coq Require Import List ZArith Bool Arith Lia Reals Lra Permutation.
Import ListNotations.
From Verif Require Import Num NumR NumFix ListFacts EquilFacts SpecMechR SpecForm FormFacts SpecNewton BallFacts.
Local Open Scope R_scope.

Lemma pivot_spec (rest : list (list R)) : forall best acc p others, pivot best rest acc = (p, others) ->
  Permutation (p :: others) (best :: rest ++ acc) /\
  (Forall (fun r => Rabs (hd 0 r) <= Rabs (hd 0 best)) acc -> Forall (fun r => Rabs (hd 0 r) <= Rabs (hd 0 p)) others).
Proof.
  induction rest as [|r rest IH]; intros best acc p others H; cbn [pivot] in H.
  - injection H as <- <-. cbn [app]. auto.
  - cbn [fltb fabs NumR f0] in H. destruct (Rltb (Rabs (hd 0 best)) (Rabs (hd 0 r))) eqn:E.
    + apply Rltb_true in E. destruct (IH _ _ _ _ H) as [P Q]. split.
      * rewrite P. cbn [app]. rewrite <- Permutation_middle. apply perm_trans with (best :: r :: rest ++ acc); [|reflexivity].
        apply perm_swap.
      * intros Ha. apply Q. constructor; [lra|]. eapply Forall_impl; [|exact Ha]. cbn. intros; lra.
    + apply Rltb_false in E. destruct (IH _ _ _ _ H) as [P Q]. split.
      * rewrite P. cbn [app]. apply perm_skip. symmetry. apply Permutation_middle.
      * intros Ha. apply Q. constructor; [lra|exact Ha].
Qed.

Lemma fdot_zeros (r : list R) k : fdot r (repeat 0 k) = 0.
Proof. revert k. induction r as [|x r IH]; intros [|k]; cbn [repeat fdot]; numR; auto. rewrite IH. ring. Qed.

Lemma fdot_sub (a p xs : list R) m : length a = length p -> fdot (map2 (fun a b => a - m * b) a p) xs = fdot a xs - m * fdot p xs.
Proof.
  revert p xs. induction a as [|x a IH]; intros [|y p] [|z xs] H; cbn [map2 fdot length] in *; numR; try lia; try ring.
  rewrite IH by lia. ring.
Qed.

Lemma last_sub (a p : list R) m : length a = length p -> a <> [] -> last (map2 (fun a b => a - m * b) a p) 0 = last a 0 - m * last p 0.
Proof.
  revert p. induction a as [|x a IH]; intros [|y p] H Hn; cbn [length] in H; try lia; [contradiction|].
  destruct a as [|x' a], p as [|y' p]; cbn [length] in H; try lia; [reflexivity|].
  cbn [map2]. change (last (map2 (fun a b => a - m * b) (x' :: a) (y' :: p)) 0 = last (x' :: a) 0 - m * last (y' :: p) 0).
  apply IH; [cbn [length]; lia|discriminate].
Qed.

Lemma fold_dot (a b : list R) s : fold_left Rplus (map2 Rmult a b) s = s + fdot a b.
Proof. revert b s. induction a as [|x a IH]; intros [|y b] s; cbn [map2 fold_left fdot]; numR; try ring. rewrite IH. ring. Qed.

Lemma hd_tl_dot (r : list R) x xs : r <> [] -> fdot r (x :: xs) = hd 0 r * x + fdot (tl r) xs.
Proof. destruct r; [contradiction|reflexivity]. Qed.
Lemma last_tl (r : list R) : (2 <= length r)%nat -> last (tl r) 0 = last r 0.
Proof. destruct r as [|x [|y r]]; cbn [length]; try lia. reflexivity. Qed.

Definition kernel0 (k : nat) (rows : list (list R)) : Prop :=
  forall v, length v = k -> (forall r, In r rows -> fdot r v = 0) -> v = repeat 0 k.

Lemma eliminate_solves : forall k rows, length rows = k -> (forall r, In r rows -> length r = S k) -> kernel0 k rows ->
  length (eliminate k rows) = k /\ forall r, In r rows -> fdot r (eliminate k rows) = last r 0.
Proof.
  induction k as [|k IH]; intros rows Hl Hr Hk.
  - destruct rows; [|discriminate]. cbn. split; [reflexivity|intros r []].
  - destruct rows as [|r0 rest]; [discriminate|]. cbn [eliminate]. destruct (pivot r0 rest []) as [p others] eqn:Ep.
    destruct (pivot_spec _ _ _ _ _ Ep) as [Pm Pb]. specialize (Pb (Forall_nil _)). rewrite app_nil_r in Pm.
    assert (Hin : forall r, In r (r0 :: rest) <-> In r (p :: others)) by (intros r; split; apply Permutation_in; [symmetry|]; exact Pm).
    assert (HlenO : length others = k). { apply Permutation_length in Pm. cbn [length] in Pm, Hl. lia. }
    assert (HlP : length p = S (S k)) by (apply Hr, Hin; left; reflexivity).
    assert (HlO : forall r, In r others -> length r = S (S k)) by (intros r Hx; apply Hr, Hin; right; exact Hx).
    assert (Hd : hd 0 p <> 0).
    { intros E0. rewrite E0, Rabs_R0 in Pb. rewrite Forall_forall in Pb.
      assert (Hz : (1 :: repeat 0 k) = repeat 0 (S k)).
      { apply Hk; [cbn [length]; rewrite repeat_length; reflexivity|]. intros r Hx. rewrite hd_tl_dot by (intros ->; specialize (Hr [] Hx); discriminate).
        rewrite fdot_zeros. assert (hd 0 r = 0) as ->; [|ring].
        apply Hin in Hx. destruct Hx as [<-|Hx]; [exact E0|]. specialize (Pb r Hx). pose proof (Rabs_pos (hd 0 r)).
        destruct (Req_dec (hd 0 r) 0) as [|Hn]; [assumption|]. apply Rabs_pos_lt in Hn. lra. }
      injection Hz. lra. }
    assert (Hne : forall r : list R, length r = S (S k) -> r <> []) by (intros r Hx ->; discriminate).
    assert (Htl : forall r : list R, length r = S (S k) -> length (tl r) = S k) by (intros [|x r] Hx; cbn in *; lia).
    cbn [f0 fdiv fsub fmul fadd NumR].
    set (sub := fun r => map2 (fun a b => a - hd 0 r / hd 0 p * b) (tl r) (tl p)).
    destruct (IH (map sub others)) as [L E].
    + rewrite map_length. exact HlenO.
    + intros r Hx. apply in_map_iff in Hx. destruct Hx as (r' & <- & Hx). unfold sub. rewrite map2_length, !Htl by auto. lia.
    + intros v Hv H0. set (x0 := - fdot (tl p) v / hd 0 p).
      assert (Hz : x0 :: v = repeat 0 (S k)).
      { apply Hk; [cbn [length]; lia|]. intros r Hx. apply Hin in Hx. rewrite hd_tl_dot by (destruct Hx as [<-|Hx]; auto).
        destruct Hx as [<-|Hx]; [unfold x0; field; exact Hd|].
        specialize (H0 (sub r) (in_map sub _ _ Hx)). unfold sub in H0. rewrite fdot_sub in H0 by (rewrite !Htl by auto; reflexivity).
        unfold x0. replace (fdot (tl r) v) with (hd 0 r / hd 0 p * fdot (tl p) v) by lra. field. exact Hd. }
      injection Hz as _ Hz. exact Hz.
    + set (xs := eliminate k (map sub others)) in *. rewrite fold_dot, Rplus_0_l. split; [cbn [length]; lia|].
      intros r Hx. apply Hin in Hx. rewrite hd_tl_dot by (destruct Hx as [<-|Hx]; auto). destruct Hx as [<-|Hx]; [field; exact Hd|].
      specialize (E (sub r) (in_map sub _ _ Hx)). unfold sub in E. rewrite fdot_sub in E by (rewrite !Htl by auto; reflexivity).
      rewrite last_sub in E; [|rewrite !Htl by auto; reflexivity|intros E0; apply (f_equal (@length R)) in E0; rewrite Htl in E0 by auto; discriminate].
      rewrite !last_tl in E by (rewrite ?HlP, ?HlO by exact Hx; lia).
      replace (fdot (tl r) xs) with (last r 0 - hd 0 r / hd 0 p * last p 0 + hd 0 r / hd 0 p * fdot (tl p) xs) by lra. field. exact Hd.
Qed.

Lemma fdot_app (a b xs : list R) : length a = length xs -> fdot (a ++ b) xs = fdot a xs.
Proof.
  revert xs. induction a as [|x a IH]; intros [|y xs] H; cbn [length] in H; try lia; [destruct b; reflexivity|].
  cbn [app fdot]. rewrite IH by lia. reflexivity.
Qed.

Lemma fdot_rsum (a xs : list R) : length a = length xs -> fdot a xs = rsum (map (fun j => nth j a 0 * nth j xs 0) (seq 0 (length xs))).
Proof.
  revert a. induction xs as [|y xs IH]; intros [|x a] H; cbn [length] in H; try lia; [reflexivity|].
  cbn [fdot length seq map rsum fold_right nth]. rewrite <- seq_shift, map_map. numR. f_equal. cbn [nth]. apply (IH a). lia.
Qed.

Theorem gauss_solves n : solves n (gauss (F:=R)).
Proof.
  intros M b HM Hrow Hns Hb. unfold gauss. rewrite HM.
  assert (Hin : forall i, (i < n)%nat -> In (nth i M [] ++ [nth i b 0]) (map2 (fun r x => r ++ [x]) M b)).
  { intros i Hi. apply (nth_error_In _ i). rewrite nth_error_map2, (nth_nth_error M i []), (nth_nth_error b i 0) by lia. reflexivity. }
  assert (Hin' : forall r, In r (map2 (fun r x => r ++ [x]) M b) -> exists i, (i < n)%nat /\ r = nth i M [] ++ [nth i b 0]).
  { intros r Hr. apply In_nth_error in Hr. destruct Hr as [i Hi].
    assert (i < n)%nat. { assert (i < length (map2 (fun r x => r ++ [x]) M b))%nat by (apply nth_error_Some; congruence). rewrite map2_length in H. lia. }
    exists i. split; [assumption|]. rewrite nth_error_map2, (nth_nth_error M i []), (nth_nth_error b i 0) in Hi by lia. congruence. }
  assert (HlR : forall i, (i < n)%nat -> length (nth i M []) = n) by (intros i Hi; apply Hrow, nth_In; lia).
  destruct (eliminate_solves n (map2 (fun r x => r ++ [x]) M b)) as [L E].
  - rewrite map2_length. lia.
  - intros r Hr. destruct (Hin' r Hr) as (i & Hi & ->). rewrite app_length, HlR by exact Hi. cbn. lia.
  - intros v Hv H0. apply (vec_ext n); [exact Hv|apply repeat_length|]. intros k Hk. rewrite nth_repeat. apply Hns; auto.
    intros i Hi. specialize (H0 _ (Hin i Hi)). rewrite fdot_app, fdot_rsum in H0 by (rewrite HlR; auto). exact H0.
  - split; [exact L|]. intros i Hi. specialize (E _ (Hin i Hi)). rewrite last_last in E.
    rewrite fdot_app, fdot_rsum in E by (rewrite HlR; auto). exact E.
Qed.
