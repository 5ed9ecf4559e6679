(** * Gaussian elimination does not look at signs *)
From Coq Require Import List ZArith Bool Arith Lia Reals Lra.
Import ListNotations.
From Verif Require Import Num NumR NumFix ListFacts GaussFacts SpecMirror MirrorFacts MirrorPath.
Local Open Scope R_scope.

(** An augmented row with changed signs. *)
Definition fr (e : bool) (ds : list bool) (r : list R) : list R := map (opp_if e) (flip (ds ++ [false]) r).

Lemma fr_cons e d ds x r : fr e (d :: ds) (x :: r) = opp_if e (opp_if d x) :: fr e ds r.
Proof. reflexivity. Qed.
Lemma fr_hd_abs e ds r : (length r <= S (length ds))%nat -> Rabs (hd 0 (fr e ds r)) = Rabs (hd 0 r).
Proof.
  destruct r as [|x r]; intros H; [unfold fr; destruct (ds ++ [false]); reflexivity|].
  destruct ds as [|d ds]; [cbn in H |- *; rewrite opp_if_abs; reflexivity|]. rewrite fr_cons. cbn [hd]. rewrite !opp_if_abs. reflexivity.
Qed.

Definition like (ds : list bool) (r r' : list R) : Prop := exists e, r' = fr e ds r.

Lemma pivot_like ds k : length ds = k -> forall rest rest' best best' acc acc' p o, like ds best best' -> Forall2 (like ds) rest rest' -> Forall2 (like ds) acc acc' ->
  (length best = S k) -> Forall (fun r => length r = S k) rest -> Forall (fun r => length r = S k) acc ->
  pivot best rest acc = (p, o) -> exists p' o', pivot best' rest' acc' = (p', o') /\ like ds p p' /\ Forall2 (like ds) o o' /\
    length p = S k /\ Forall (fun r => length r = S k) o /\ (length o = length rest + length acc)%nat.
Proof.
  intros Hk. induction rest as [|r rest IH]; intros rest' best best' acc acc' p o HB HR HA LB LR LA H; inversion HR; subst; cbn [pivot] in *.
  - injection H as <- <-. exists best', acc'. repeat split; auto.
  - numR. assert (E : Rltb (Rabs (hd 0 best')) (Rabs (hd 0 y)) = Rltb (Rabs (hd 0 best)) (Rabs (hd 0 r))).
    { destruct HB as [e1 ->]. destruct H2 as [e2 ->]. inversion LR; subst. rewrite !fr_hd_abs by lia. reflexivity. }
    rewrite E. inversion LR; subst. destruct (Rltb _ _).
    + destruct (IH l' r y (best :: acc) (best' :: acc') p o H2 H4 (Forall2_cons _ _ HB HA) H3 H5 (Forall_cons _ LB LA) H) as (p' & o' & E1 & E2 & E3 & E4 & E5 & E6).
      exists p', o'. repeat split; auto. cbn in *. lia.
    + destruct (IH l' best best' (r :: acc) (y :: acc') p o HB H4 (Forall2_cons _ _ H2 HA) LB H5 (Forall_cons _ H3 LA) H) as (p' & o' & E1 & E2 & E3 & E4 & E5 & E6).
      exists p', o'. repeat split; auto. cbn in *. lia.
Qed.

Lemma Rdiv_opp_r x y : x / (- y) = - (x / y).
Proof. unfold Rdiv. rewrite Rinv_opp. ring. Qed.
Lemma opp_if_div_r b x y : x / opp_if b y = opp_if b (x / y).
Proof. destruct b; [apply Rdiv_opp_r|reflexivity]. Qed.

Lemma sub_like e1 e2 ds (a p : list R) m : length a = S (length ds) -> length p = S (length ds) ->
  map2 (fun a b => a - opp_if e1 (opp_if e2 m) * b) (fr e1 ds a) (fr e2 ds p) = fr e1 ds (map2 (fun a b => a - m * b) a p).
Proof.
  intros Ha Hp. unfold fr. assert (Hl : length (ds ++ [false]) = S (length ds)) by (rewrite app_length; cbn; lia).
  rewrite <- Hl in *. revert a p Ha Hp. generalize (ds ++ [false]). induction l as [|d l IH]; intros [|a0 a] [|p0 p] Ha Hp; try discriminate; [reflexivity|].
  cbn. f_equal; [|apply IH; cbn in *; lia]. destruct e1, e2, d; cbn; ring.
Qed.

Lemma dot_like e ds (p xs : list R) : length p = S (length ds) -> length xs = length ds -> fdot (fr e ds p) (flip ds xs) = opp_if e (fdot p xs).
Proof.
  revert p xs. induction ds as [|d ds IH]; intros p xs Hp Hx.
  - destruct xs; [|discriminate]. destruct p as [|x [|? ?]]; try discriminate. cbn. rewrite opp_if_0. reflexivity.
  - destruct p as [|x p], xs as [|y xs]; try discriminate. rewrite fr_cons. cbn [flip map2 fdot]. change (map2 opp_if ds xs) with (flip ds xs). rewrite IH by (cbn in *; lia).
    cbn [fdot]. numR. destruct e, d; cbn; ring.
Qed.

Lemma last_like e ds (p : list R) : length p = S (length ds) -> last (fr e ds p) 0 = opp_if e (last p 0).
Proof.
  revert p. induction ds as [|d ds IH]; intros p Hp.
  - destruct p as [|x [|? ?]]; try discriminate. reflexivity.
  - destruct p as [|x p]; try discriminate. rewrite fr_cons. cbn in Hp. specialize (IH p ltac:(lia)). destruct p as [|y p]; [discriminate|].
    destruct ds as [|d2 ds]; [destruct p; [|discriminate]; reflexivity|]. rewrite fr_cons in *. exact IH.
Qed.

Lemma eliminate_len : forall k (rows : list (list R)), length rows = k -> length (eliminate k rows) = k.
Proof.
  induction k as [|k IH]; intros rows H; [destruct rows; reflexivity|]. destruct rows as [|r rest]; [discriminate|]. cbn [eliminate].
  destruct (pivot r rest []) as [p o] eqn:E. cbn [length]. f_equal. apply IH. rewrite map_length.
  assert (G : forall (rest : list (list R)) best acc p o, pivot best rest acc = (p, o) -> length o = (length rest + length acc)%nat).
  { clear. induction rest as [|r rest IH]; intros best acc p o H; cbn [pivot] in H; [injection H as <- <-; reflexivity|].
    destruct (fltb _ _); apply IH in H; cbn in *; lia. }
  apply G in E. cbn in *. lia.
Qed.

Lemma eliminate_like : forall k ds rows rows', length ds = k -> length rows = k -> Forall (fun r => length r = S k) rows -> Forall2 (like ds) rows rows' ->
  eliminate k rows' = flip ds (eliminate k rows).
Proof.
  induction k as [|k IH]; intros ds rows rows' Hd Hr HF H.
  - destruct ds; [|discriminate]. destruct rows; [|discriminate]. inversion H; reflexivity.
  - destruct rows as [|r rest]; [discriminate|]. inversion H; subst. destruct ds as [|d ds]; [discriminate|]. inversion HF; subst.
    cbn [eliminate]. destruct (pivot r rest []) as [p o] eqn:E.
    destruct (pivot_like (d :: ds) (S k) Hd rest l' r y [] [] p o H2 H4 ltac:(constructor) H3 H5 ltac:(constructor) E) as (p' & o' & -> & [ep ->] & Ho & Lp & Fo & Lo).
    cbn in Hd. injection Hd as Hd. destruct p as [|p0 p]; [discriminate|]. cbn in Lp. injection Lp as Lp. rewrite fr_cons. cbn [hd tl].
    assert (EX : eliminate k (map (fun r => let m := (hd f0 r / opp_if ep (opp_if d p0))%num in map2 (fun a b => (a - m * b)%num) (tl r) (fr ep ds p)) o')
        = flip ds (eliminate k (map (fun r => let m := (hd f0 r / p0)%num in map2 (fun a b => (a - m * b)%num) (tl r) p) o))).
    { apply IH; [exact Hd|rewrite map_length; cbn in *; lia| |].
      - apply Forall_map. eapply Forall_impl; [|exact Fo]. intros q Hq. cbn beta zeta in *. destruct q; [discriminate|]. cbn in *. rewrite map2_length. lia.
      - clear - Ho Fo Hd Lp. induction Ho as [|q q' o o' Hq Ho IHo]; [constructor|]. inversion Fo; subst. cbn [map]. constructor; [|apply IHo; assumption].
        destruct Hq as [e ->]. destruct q as [|q0 q]; [discriminate|]. rewrite fr_cons. cbn [hd tl]. exists e. numR.
        rewrite <- (sub_like e ep ds q p) by (cbn in *; lia).
        replace (opp_if e (opp_if d q0) / opp_if ep (opp_if d p0)) with (opp_if e (opp_if ep (q0 / p0))); [reflexivity|].
        rewrite !opp_if_div_r, <- !opp_if_div. destruct e, ep, d; cbn [opp_if]; lra. }
    cbv zeta in *. rewrite EX. cbn [flip map2]. f_equal. numR. rewrite !fold_dot, !Rplus_0_l.
    set (xs := eliminate k _). assert (Lx : length xs = k) by (apply eliminate_len; rewrite map_length; cbn in *; lia).
    rewrite dot_like by lia. change (opp_if ep (opp_if d p0) :: fr ep ds p) with (fr ep (d :: ds) (p0 :: p)). rewrite last_like by (cbn; lia).
    rewrite <- opp_if_sub, !opp_if_div_r, <- opp_if_div. destruct ep, d; cbn [opp_if]; ring.
Qed.

Lemma gauss_sign_free : sign_free (gauss (F := R)).
Proof.
  split.
  - intros M b H. unfold gauss. rewrite eliminate_len; [exact H|]. rewrite map2_length. lia.
  - intros M b es ds HM He Hd HF. unfold gauss. rewrite map2_length, He, <- HM, Nat.min_id. rewrite <- HM in *.
    apply eliminate_like; [exact Hd|rewrite map2_length; lia| |].
    + assert (G : forall k (M : list (list R)) b, Forall (fun r => length r = k) M -> Forall (fun r => length r = S k) (map2 (fun r x => r ++ [x]) M b)).
      { clear. intros k M b H. revert b. induction H as [|r M Hr H IH]; intros [|x b]; cbn; constructor; [rewrite app_length; cbn; lia|apply IH]. }
      apply G, HF.
    + assert (G : forall k (M : list (list R)) b es, length ds = k -> length M = length b -> length es = length b -> Forall (fun r => length r = k) M ->
        Forall2 (like ds) (map2 (fun r x => r ++ [x]) M b) (map2 (fun r x => r ++ [x]) (map2 (fun e row => map (opp_if e) (flip ds row)) es M) (flip es b))).
      { clear. intros k M b es Hk. revert b es. induction M as [|r M IH]; intros [|x b] [|e es] H1 H2 H3; try discriminate; cbn; constructor.
        - exists e. inversion H3; subst. unfold fr. rewrite flip_app by lia. rewrite map_app. reflexivity.
        - inversion H3; subst. apply IH; auto. }
      apply (G (length M)); auto; lia.
Qed.
