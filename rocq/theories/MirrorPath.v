(** * The path follower on vectors with changed signs *)
From Coq Require Import List ZArith Bool Arith Lia Reals Lra.
Import ListNotations.
From Verif Require Import Num NumR Vec Analysis Solver ListFacts SpecMirror MirrorFacts MirrorEval.
Local Open Scope R_scope.

Lemma map2_app {A B C} (f : A -> B -> C) x1 x2 y1 y2 : length x1 = length y1 -> map2 f (x1 ++ x2) (y1 ++ y2) = map2 f x1 y1 ++ map2 f x2 y2.
Proof. revert y1. induction x1 as [|x x1 IH]; intros [|y y1] H; try discriminate H; [reflexivity|]. cbn. f_equal. apply IH. cbn in H. lia. Qed.
Lemma flip_div bs x d : flip bs (map2 Rdiv x d) = map2 Rdiv (flip bs x) d.
Proof. revert x d. induction bs as [|b bs IH]; intros [|x xs] [|d ds]; try reflexivity. cbn. rewrite opp_if_div. f_equal. apply IH. Qed.
Lemma flip_abs bs x : (length x <= length bs)%nat -> map Rabs (flip bs x) = map Rabs x.
Proof. revert x. induction bs as [|b bs IH]; intros [|x xs] H; cbn in *; try reflexivity; try lia. rewrite opp_if_abs. f_equal. apply IH. lia. Qed.

Section Path.
  Variable solve : list (list R) -> list R -> list R.
  Variable argsortF : list R -> list nat.
  Notation AN := (analysis R).
  Variables g g' : gfun R.
  Variables dg dg' : kfun R.
  Variable Sim : AN -> AN -> Prop.
  Variable cs : list bool.
  Variable lb : bool.
  Notation n := (length cs).
  Notation bs := (cs ++ [lb]).
  Notation N := (S n).

  Hypothesis Hsolve : sign_free solve.
  Hypothesis Hg : forall V V0 w a a' b x, length V = N -> length V0 = N -> Sim a a' -> g V V0 w a = Ok (b, x) ->
    length x = n /\ exists b', g' (flip bs V) (flip bs V0) w a' = Ok (b', flip bs x) /\ Sim b b'.
  Hypothesis Hk : forall V a a' b K, length V = n -> Sim a a' -> dg V a = Ok (b, K) ->
    length K = n /\ Forall (fun r => length r = n) K /\ exists b', dg' (flip bs V) a' = Ok (b', flipM bs bs K) /\ Sim b b'.
  Hypothesis Hj : forall j a a', Sim a a' -> Sim (set_j j a) (set_j (flip_j bs j) a').
  Hypothesis HKm : forall v v' a a', Sim a a' -> Sim (set_Kmod v a) (set_Kmod v' a').
  Hypothesis HdV : forall v a a', Sim a a' -> Sim (set_dVmax v a) (set_dVmax v a').
  Hypothesis Hlpf : forall v a a', Sim a a' -> Sim (set_lpf v a) (set_lpf (opp_if lb v) a').
  Hypothesis HUr : forall v a a', length v = n -> Sim a a' -> Sim (set_Ured v a) (set_Ured (flip bs v) a').
  Hypothesis HVr : forall v a a', length v = N -> Sim a a' -> Sim (set_Vred v a) (set_Vred (flip bs v) a').
  Hypothesis Hf0 : forall a a', Sim a a' -> a_f0red a' = map (opp_if lb) (flip bs (a_f0red a)).

  Lemma bs_length : length bs = N.
  Proof. rewrite app_length. cbn. lia. Qed.
  Lemma flip_N x : length x = N -> length (flip bs x) = N.
  Proof. intros H. rewrite flip_len; [exact H|rewrite bs_length; lia]. Qed.
  Lemma flip_n x : length x = n -> flip bs x = flip cs x.
  Proof. intros H. rewrite <- (app_nil_r x), flip_app by auto. cbn. rewrite !app_nil_r. reflexivity. Qed.
  Lemma flip_snoc u l : length u = n -> flip bs (u ++ [l]) = flip cs u ++ [opp_if lb l].
  Proof. intros H. rewrite flip_app by auto. reflexivity. Qed.
  Lemma split_last (x : list R) : length x = N -> exists u l, x = u ++ [l] /\ length u = n.
  Proof.
    intros H. destruct (exists_last (l := x)) as (u & l & ->); [intros ->; discriminate|]. exists u, l.
    rewrite app_length in H. cbn in H. split; [reflexivity|lia].
  Qed.
  Lemma flip_last x : length x = N -> last (flip bs x) 0 = opp_if lb (last x 0) /\ removelast (flip bs x) = flip bs (removelast x).
  Proof.
    intros H. destruct (split_last x H) as (u & l & -> & Hu). rewrite flip_snoc by exact Hu. rewrite !last_snoc, !removelast_last.
    split; [reflexivity|]. symmetry. apply flip_n, Hu.
  Qed.

  (** ** Component numbers *)
  Lemma get_flip x i v : length x = N -> py_get x i = Ok v -> exists b, py_get bs i = Ok b /\ py_get (flip bs x) i = Ok (opp_if b v).
  Proof.
    intros Hl H. apply py_get_nth in H. destruct H as (p & Hp & H). rewrite Hl in Hp.
    destruct (nth_error bs p) as [b|] eqn:E.
    2:{ apply nth_error_None in E. rewrite bs_length in E. assert (p < length x)%nat by (apply nth_error_Some; congruence). lia. }
    exists b. split.
    - apply py_get_nth. exists p. rewrite bs_length. auto.
    - apply py_get_nth. exists p. rewrite flip_N, nth_flip, E, H by exact Hl. auto.
  Qed.
  Lemma flip_j_abs j : Z.abs (flip_j bs j) = Z.abs j.
  Proof. unfold flip_j. destruct (py_get bs _) as [[]| |]; lia. Qed.
  Lemma flip_j_sgn j b : py_get bs (Z.abs j - 1) = Ok b -> IZR (Z.sgn (flip_j bs j)) = opp_if b (IZR (Z.sgn j)).
  Proof. intros H. unfold flip_j. rewrite H. destruct b; cbn [opp_if]; [|reflexivity]. rewrite Z.sgn_opp, opp_IZR. reflexivity. Qed.
  Lemma flip_j_0 : flip_j bs 0 = 0%Z.
  Proof. unfold flip_j. destruct (py_get bs _) as [[]| |]; reflexivity. Qed.
  Lemma flip_j_twice j : flip_j bs (flip_j bs j) = j.
  Proof. unfold flip_j at 1. rewrite flip_j_abs. unfold flip_j. destruct (py_get bs _) as [[]| |]; lia. Qed.
  Lemma flip_j_eqb i j : (flip_j bs i =? flip_j bs j)%Z = (i =? j)%Z.
  Proof.
    destruct (Z.eqb_spec i j) as [->|H]; [apply Z.eqb_refl|]. apply Z.eqb_neq. intros E. apply H.
    rewrite <- (flip_j_twice i), <- (flip_j_twice j), E. reflexivity.
  Qed.
  Lemma flip_j_eq0 j : (flip_j bs j =? 0)%Z = (j =? 0)%Z.
  Proof. rewrite <- flip_j_0 at 1. apply flip_j_eqb. Qed.
  Lemma flip_j_top : lb = false -> flip_j bs (Z.of_nat N) = Z.of_nat N.
  Proof.
    intros E. unfold flip_j, py_get, py_pos. rewrite bs_length. replace (Z.abs (Z.of_nat N) - 1)%Z with (Z.of_nat n) by lia.
    destruct (Z.leb_spec 0 (Z.of_nat n)); [|lia]. destruct (Z.ltb_spec (Z.of_nat n) (Z.of_nat N)); [|lia]. cbn [andb bind].
    rewrite Nat2Z.id, nth_error_app2, Nat.sub_diag by lia. cbn. rewrite E. reflexivity.
  Qed.

  (** ** Residual and bordered matrix *)
  Definition es (b : bool) : list bool := cs ++ [b].

  Lemma f_ext_flip V0 j Vmax w V a a' b x y : length V = N -> length V0 = N -> Sim a a' -> py_get bs (Z.abs j - 1) = Ok b ->
    f_ext g V0 j Vmax w V a = Ok (x, y) ->
    length y = N /\ exists x', f_ext g' (flip bs V0) (flip_j bs j) (opp_if b Vmax) w (flip bs V) a' = Ok (x', flip (es b) y) /\ Sim x x'.
  Proof.
    intros HV HV0 HS Hb H. unfold f_ext in *. apply bind_ok in H. destruct H as ([a1 gr] & H1 & H).
    destruct (Hg _ _ _ _ _ _ _ HV HV0 (Hj j _ _ HS) H1) as (Lg & b' & E & HS').
    rewrite E. cbn [bind]. apply bind_ok in H. destruct H as (vj & Hv & H). injection H as <- <-.
    rewrite flip_j_abs. destruct (get_flip _ _ _ HV Hv) as (b2 & Hb2 & Hv'). rewrite Hb in Hb2. injection Hb2 as <-. rewrite Hv'. cbn [bind].
    split; [rewrite app_length, map_length; cbn; lia|]. eexists. split; [|exact HS']. do 2 f_equal. unfold es.
    rewrite flip_app by (rewrite map_length; auto). numR. rewrite flip_opp, flip_n by exact Lg. cbn. rewrite opp_if_sub. reflexivity.
  Qed.

  Lemma hstack_flip K col Kf : length K = n -> Forall (fun r => length r = n) K -> hstack_col K col = Ok Kf ->
    hstack_col (flipM bs bs K) (map (opp_if lb) (flip bs col)) = Ok (flipM bs bs Kf) /\ length Kf = n /\ Forall (fun r => length r = N) Kf.
  Proof.
    intros HK HF H. unfold hstack_col in *. destruct (Nat.eqb_spec (length K) (length col)) as [E|E]; [|discriminate]. injection H as <-.
    assert (L : length (flipM bs bs K) = n). { unfold flipM. rewrite map2_length, bs_length. lia. }
    rewrite L, map_length, flip_len by (rewrite bs_length; lia). rewrite <- E, HK, Nat.eqb_refl. split; [|split].
    - f_equal. unfold flipM. assert (Hbs : (length col <= length bs)%nat) by (rewrite bs_length; lia). clear - E HF Hbs.
      enough (G : forall ds K col, length K = length col -> Forall (fun r => length r = n) K ->
        map2 (fun row x => row ++ [x]) (map2 (fun e row => map (opp_if e) (flip bs row)) ds K) (map (opp_if lb) (flip ds col)) =
        map2 (fun e row => map (opp_if e) (flip bs row)) ds (map2 (fun row x => row ++ [x]) K col)) by (apply G; assumption).
      induction ds as [|d ds IH]; intros [|row K'] [|x col'] E1 F1; try discriminate E1; try reflexivity.
      inversion F1; subst. cbn. rewrite flip_snoc, flip_n, map_app by assumption. cbn. rewrite opp_if_comm. f_equal. apply IH; [cbn in E1; lia|assumption].
    - rewrite map2_length. lia.
    - clear - HF E. revert K E HF. induction col as [|x col IH]; intros [|row K] E HF; try discriminate E; constructor.
      + inversion HF; subst. rewrite app_length. cbn. lia.
      + apply IH; [cbn in E; lia|]. inversion HF; assumption.
  Qed.

  Lemma ctrl_flip j b qc : py_get bs (Z.abs j - 1) = Ok b -> ctrl_row N j = Ok qc ->
    length qc = N /\ ctrl_row N (flip_j bs j) = Ok qc /\ map (opp_if b) (flip bs qc) = qc.
  Proof.
    intros Hb H. unfold ctrl_row in *. rewrite flip_j_abs. apply bind_ok in H. destruct H as (p & Hp & H). rewrite Hp. cbn [bind].
    assert (E : qc = set_nth p 1 (repeat 0 N)) by (numR; congruence). subst qc. clear H.
    split; [rewrite set_nth_length, repeat_length; reflexivity|]. split; [reflexivity|].
    apply py_get_nth in Hb. destruct Hb as (p2 & Hp2 & Hb). rewrite bs_length, Hp in Hp2. injection Hp2 as <-.
    pose proof bs_length as Lb. clear Hp; revert p Hb Lb. generalize N. generalize bs. clear. numR.
    induction l as [|c l IH]; intros [|k] p Hb Lb; try discriminate Lb; [destruct p; discriminate|].
    assert (Z : forall l k, length l = k -> forall b, map (opp_if b) (flip l (repeat 0 k)) = repeat 0 k).
    { intros l0 k0 E b0. rewrite flip_zero, E, Nat.min_id. clear. induction k0 as [|k0 IH]; [reflexivity|]. cbn. rewrite opp_if_0, IH. reflexivity. }
    cbn in Lb. injection Lb as Lb. destruct p as [|p]; cbn in Hb |- *.
    - injection Hb as ->. rewrite opp_if_twice. f_equal. apply Z, Lb.
    - rewrite !opp_if_0. f_equal. apply IH; assumption.
  Qed.

  Lemma dfdx_flip j V a a' b x M : length V = N -> Sim a a' -> py_get bs (Z.abs j - 1) = Ok b -> dfdx dg j V a = Ok (x, M) ->
    length M = N /\ Forall (fun r => length r = N) M /\
    exists x', dfdx dg' (flip_j bs j) (flip bs V) a' = Ok (x', flipM (es b) bs M) /\ Sim x x'.
  Proof.
    intros HV HS Hb H. unfold dfdx in *. cbv zeta in *. apply bind_ok in H. destruct H as (qc & Hq & H). rewrite flip_N by exact HV.
    rewrite HV in Hq. destruct (ctrl_flip _ _ _ Hb Hq) as (Lq & Hq' & Eq). rewrite Hq'. cbn [bind].
    apply bind_ok in H. destruct H as ([a1 K] & H1 & H). destruct (flip_last V HV) as [_ Er].
    assert (Lr : length (removelast V) = n). { destruct (split_last V HV) as (u & l & -> & Hu). rewrite removelast_last. exact Hu. }
    rewrite Er. destruct (Hk _ _ _ _ _ Lr (Hj j _ _ HS) H1) as (LK & FK & b' & E & HS'). rewrite E. cbn [bind].
    rewrite (Hf0 _ _ HS'). apply bind_ok in H. destruct H as (Kf & HK & H). numR.
    assert (Eo : forall l, map Ropp (map (opp_if lb) (flip bs l)) = map (opp_if lb) (flip bs (map Ropp l))).
    { intros l. rewrite flip_opp, !map_map. apply map_ext. intros y. symmetry. apply opp_if_opp. }
    rewrite Eo. destruct (hstack_flip _ _ _ LK FK HK) as (HK' & LKf & FKf). rewrite HK'. cbn [bind].
    destruct (forallb _ Kf); [|discriminate]. injection H as <- <-.
    assert (E2 : forallb (fun row => Nat.eqb (length row) (length qc)) (flipM bs bs Kf) = true).
    { rewrite Lq. unfold flipM. clear - FKf.
      enough (G : forall l, forallb (fun row => Nat.eqb (length row) N) (map2 (fun e row => map (opp_if e) (flip bs row)) l Kf) = true) by apply G.
      induction FKf as [|r Kf Hr HF IH]; intros [|d ds]; try reflexivity.
      cbn [map2 forallb]. rewrite map_length, flip_N, Nat.eqb_refl by exact Hr. apply IH. }
    rewrite E2. split; [rewrite app_length; cbn; lia|]. split; [apply Forall_app; split; [assumption|constructor; [exact Lq|constructor]]|].
    assert (E3 : flipM (es b) bs (Kf ++ [qc]) = flipM bs bs Kf ++ [qc]).
    { unfold flipM, es. rewrite map2_app by auto. cbn [map2]. rewrite Eq. f_equal.
      replace (map2 (fun e row => map (opp_if e) (flip bs row)) bs Kf) with (map2 (fun e row => map (opp_if e) (flip bs row)) (cs ++ [lb]) (Kf ++ [])) by (rewrite app_nil_r; reflexivity).
      rewrite map2_app by auto. cbn. rewrite app_nil_r. reflexivity. }
    rewrite E3. eexists. split; [reflexivity|]. apply HKm, HS'.
  Qed.

  (** ** Newton *)
  Definition no_flip (o o' : newton_out R) : Prop :=
    length (no_x o) = N /\ no_x o' = flip bs (no_x o) /\ no_success o' = no_success o /\ no_n o' = no_n o.

  Lemma newton_flip V0 j Vmax x nfev ftol xtol a a' b r o : length x = N -> length V0 = N -> Sim a a' -> py_get bs (Z.abs j - 1) = Ok b ->
    newton solve (f_ext g V0 j Vmax false) (dfdx dg j) x nfev ftol xtol a = Ok (r, o) ->
    exists r' o', newton solve (f_ext g' (flip bs V0) (flip_j bs j) (opp_if b Vmax) false) (dfdx dg' (flip_j bs j)) (flip bs x) nfev ftol xtol a' = Ok (r', o') /\
      Sim r r' /\ no_flip o o'.
  Proof.
    intros Hx HV0 HS Hb. unfold newton. generalize (Z.to_nat nfev), 0%Z, (@None (R * R)).
    intros k. revert x a a' Hx HS. induction k as [|k IH]; intros x a a' Hx HS m prev H; cbn [newton_loop] in *.
    - destruct prev as [[p1 p2]|]; [|discriminate]. injection H as <- <-. do 2 eexists. split; [reflexivity|]. split; [exact HS|]. repeat split; auto.
    - apply bind_ok in H. destruct H as ([s1 Km] & H1 & H).
      destruct (dfdx_flip _ _ _ _ _ _ _ Hx HS Hb H1) as (LM & FM & s1' & -> & S1). cbn [bind].
      apply bind_ok in H. destruct H as ([s2 fv] & H2 & H).
      destruct (f_ext_flip _ _ _ _ _ _ _ _ _ _ Hx HV0 S1 Hb H2) as (Lf & s2' & -> & S2). cbn [bind].
      apply bind_ok in H. destruct H as (x' & Hx' & H). numR.
      assert (Lm : length (map Ropp fv) = N) by (rewrite map_length; exact Lf).
      assert (Ld : length (solve Km (map Ropp fv)) = N). { rewrite (proj1 Hsolve); lia. }
      assert (Ed : solve (flipM (es b) bs Km) (map Ropp (flip (es b) fv)) = flip bs (solve Km (map Ropp fv))).
      { rewrite <- flip_opp. unfold flipM. apply (proj2 Hsolve).
        - lia.
        - unfold es. rewrite app_length. cbn. lia.
        - rewrite bs_length. lia.
        - rewrite Lm. exact FM. }
      rewrite Ed. rewrite bcast2_same in Hx' by lia. injection Hx' as <-.
      rewrite bcast2_same by (rewrite !flip_N by assumption; reflexivity). cbn [bind].
      rewrite <- (flip_map2 bs Rplus) by (intros; apply opp_if_add).
      set (x' := map2 Rplus x (solve Km (map Ropp fv))) in *.
      assert (Lx' : length x' = N) by (unfold x'; rewrite map2_length; lia).
      apply bind_ok in H. destruct H as ([s3 fv'] & H3 & H).
      destruct (f_ext_flip _ _ _ _ _ _ _ _ _ _ Lx' HV0 S2 Hb H3) as (Lf' & s3' & -> & S3). cbn [bind]. cbv zeta in *.
      rewrite !fnorm_flip by (rewrite ?bs_length; unfold es; rewrite ?app_length; cbn; lia).
      destruct (_ && _)%bool.
      + injection H as <- <-. do 2 eexists. split; [reflexivity|]. split; [exact S3|]. repeat split; auto.
      + eapply IH; eassumption.
  Qed.

  (** ** Largest component *)
  Lemma biggest_flip Dx dxmax i v : length Dx = N -> length dxmax = N -> biggest argsortF Dx dxmax = Ok (i, v) ->
    exists b v', biggest argsortF (flip bs Dx) dxmax = Ok (i, v') /\ py_get bs (Z.of_nat i - 1) = Ok b /\ v' = opp_if b v /\ (1 <= i)%nat.
  Proof.
    intros H1 H2 H. unfold biggest in *. cbv zeta in *. rewrite bcast2_same in * by (rewrite ?flip_N; lia). cbn [bind] in *. numR.
    rewrite <- flip_div. set (q := map2 Rdiv Dx dxmax) in *. assert (Lq : length q = N) by (unfold q; rewrite map2_length; lia).
    rewrite flip_abs by (rewrite bs_length; lia).
    apply bind_ok in H. destruct H as (k & -> & H). cbn [bind]. apply bind_ok in H. destruct H as (w & Hw & H). injection H as <- <-.
    rewrite nth_flip. destruct (nth_error q k) as [u|] eqn:E; [|discriminate]. injection Hw as ->.
    destruct (nth_error bs k) as [b|] eqn:Eb.
    2:{ apply nth_error_None in Eb. rewrite bs_length in Eb. assert (k < length q)%nat by (apply nth_error_Some; congruence). lia. }
    exists b. eexists. cbn [bind]. split; [reflexivity|]. split; [|split; [|lia]].
    - apply py_get_nth. exists k. split; [|exact Eb]. unfold py_pos. rewrite bs_length.
      assert (k < N)%nat. { rewrite <- Lq. apply nth_error_Some. congruence. }
      destruct (Z.leb_spec 0 (Z.of_nat (S k) - 1)); [|lia]. destruct (Z.ltb_spec (Z.of_nat (S k) - 1) (Z.of_nat N)); [|lia].
      cbn [andb]. f_equal. lia.
    - rewrite opp_if_abs, !fsignR. destruct b; cbn [opp_if]; [|reflexivity].
      destruct (Rlt_dec 0 (- w)), (Rlt_dec (- w) 0), (Rlt_dec 0 w), (Rlt_dec w 0); lra.
  Qed.

  Lemma signed_flip i v b j : (1 <= i)%nat -> py_get bs (Z.of_nat i - 1) = Ok b -> signed_index i v = Ok j -> signed_index i (opp_if b v) = Ok (flip_j bs j).
  Proof.
    intros Hi Hb H. unfold signed_index, fisnan in *. numR.
    assert (Er : forall u, Reqb u u = true) by (intros u; apply Reqb_true; reflexivity). rewrite Er in *. cbn [negb] in *. injection H as <-. f_equal.
    unfold Rltb in *. destruct (Rlt_dec 0 v) as [P|P]; [|destruct (Rlt_dec v 0) as [Q|Q]].
    - rewrite Z.mul_1_r. unfold flip_j. replace (Z.abs (Z.of_nat i)) with (Z.of_nat i) by lia. rewrite Hb.
      destruct b; cbn [opp_if]; repeat match goal with |- context [Rlt_dec ?u ?w] => destruct (Rlt_dec u w) end; first [exfalso; lra|lia].
    - unfold flip_j. replace (Z.abs (Z.of_nat i * -1)) with (Z.of_nat i) by lia. rewrite Hb.
      destruct b; cbn [opp_if]; repeat match goal with |- context [Rlt_dec ?u ?w] => destruct (Rlt_dec u w) end; first [exfalso; lra|lia].
    - rewrite Z.mul_0_r, flip_j_0. assert (v = 0) by lra. subst. rewrite opp_if_0.
      destruct (Rlt_dec 0 0); [exfalso; lra|lia].
  Qed.

  (** ** Prediction *)
  Definition pre_flip (p p' : pre_out R) : Prop :=
    Sim (pr_an p) (pr_an p') /\ pr_j p' = flip_j bs (pr_j p) /\ pr_success p' = pr_success p /\ pr_n p' = pr_n p /\
    length (pr_Dx p) = N /\ pr_Dx p' = flip bs (pr_Dx p) /\ Rabs (pr_v p') = Rabs (pr_v p).

  Lemma predict_flip cfg x dxmax j a a' p : length x = N -> length dxmax = N -> Sim a a' -> predict solve argsortF g dg cfg x dxmax j a = Ok p ->
    exists p', predict solve argsortF g' dg' cfg (flip bs x) dxmax (flip_j bs j) a' = Ok p' /\ pre_flip p p'.
  Proof.
    intros Hx Hd HS H. unfold predict in *. cbv zeta in *. rewrite flip_j_abs.
    apply bind_ok in H. destruct H as (xj & Hxj & H). destruct (get_flip _ _ _ Hx Hxj) as (b & Hb & ->). cbn [bind].
    apply bind_ok in H. destruct H as (dj & -> & H). cbn [bind]. numR. rewrite (flip_j_sgn _ _ Hb), <- opp_if_scale, <- opp_if_add.
    apply bind_ok in H. destruct H as ([a1 o] & H1 & H).
    destruct (newton_flip _ _ _ _ _ _ _ _ _ _ _ _ Hx Hx HS Hb H1) as (a1' & o' & -> & S1 & Lo & Eo1 & Eo2 & Eo3).
    cbn [bind]. apply bind_ok in H. destruct H as (Dx & HD & H). rewrite bcast2_same in HD by lia. injection HD as <-.
    rewrite Eo1, Eo2, Eo3, bcast2_same by (rewrite !flip_N; lia). cbn [bind]. rewrite <- flip_map2 by (intros; apply opp_if_sub).
    assert (LD : length (map2 Rminus (no_x o) x) = N) by (rewrite map2_length; lia).
    apply bind_ok in H. destruct H as ([i1 v1] & Hbig & H). destruct (biggest_flip _ _ _ _ LD Hd Hbig) as (b1 & v' & -> & Hb1 & -> & Hi). cbn [bind].
    apply bind_ok in H. destruct H as (j' & Hj' & H). rewrite (signed_flip _ _ _ _ Hi Hb1 Hj'). cbn [bind]. injection H as <-.
    rewrite opp_if_abs. eexists. split; [reflexivity|]. repeat split; auto. cbn [pr_v]. apply opp_if_abs.
  Qed.

  (** ** Recycling *)
  Definition rc_flip (s s' : rcst R) : Prop :=
    Sim (rc_an s) (rc_an s') /\ rc_z s' = rc_z s /\ rc_j s' = flip_j bs (rc_j s) /\ length (rc_dxmax s) = N /\ rc_dxmax s' = rc_dxmax s /\
    rc_b s' = rc_b s /\ rc_npre s' = rc_npre s /\ rc_out s' = rc_out s.

  Definition pre_arg (p p' : option (list R * R)) : Prop :=
    match p, p' with
    | Some (D, v), Some (D', v') => length D = N /\ D' = flip bs D /\ Rabs v' = Rabs v
    | None, None => True
    | _, _ => False
    end.

  Lemma control_len cfg d d0 j j0 z ok b m nf d' z' b' ch : length d = N -> length d0 = N ->
    dxmax_control cfg d d0 j j0 z ok b m nf = Ok (d', z', b', ch) -> length d' = N.
  Proof.
    intros Hd Hd0 H. unfold dxmax_control in H. apply bind_ok in H. destruct H as (u & _ & H). apply bind_ok in H. destruct H as (u0 & _ & H). cbv zeta in H.
    repeat match type of H with context [if ?c then _ else _] => destruct c end; try discriminate H; injection H as <- <- <- <-; rewrite ?map_length; assumption.
  Qed.
  Lemma control_flip cfg d d0 j j0 z ok b m nf :
    dxmax_control cfg d d0 (flip_j bs j) (flip_j bs j0) z ok b m nf = dxmax_control cfg d d0 j j0 z ok b m nf.
  Proof. unfold dxmax_control. rewrite !flip_j_eqb. reflexivity. Qed.

  Lemma forallb_abs t q : (length q <= length bs)%nat -> forallb (fun v => Rleb (Rabs v) t) (flip bs q) = forallb (fun v => Rleb (Rabs v) t) q.
  Proof.
    generalize bs. intros l. revert q. induction l as [|c l IH]; intros [|u q] H; cbn in *; try reflexivity; try lia.
    rewrite opp_if_abs. f_equal. apply IH. lia.
  Qed.

  Lemma recycle_flip cfg x0 dxmax0 pre pre' : length x0 = N -> length dxmax0 = N -> pre_arg pre pre' -> forall fuel s s' r x stop, rc_flip s s' ->
    recycle solve argsortF g dg cfg x0 dxmax0 pre fuel s = Ok (r, x, stop) ->
    length x = N /\ exists r', recycle solve argsortF g' dg' cfg (flip bs x0) dxmax0 pre' fuel s' = Ok (r', flip bs x, stop) /\ rc_flip r r'.
  Proof.
    intros Hx0 Hd0 Hpre. induction fuel as [|fuel IH]; intros s s' r x stop HS H; [discriminate|].
    destruct HS as (S1 & E2 & E3 & L4 & E4 & E5 & E6 & E7).
    cbn [recycle] in *. cbv zeta in *. rewrite E2, E3, E4, E5, E6, E7, flip_j_abs.
    apply bind_ok in H. destruct H as (xj & Hxj & H). destruct (get_flip _ _ _ Hx0 Hxj) as (b & Hb & ->). cbn [bind].
    apply bind_ok in H. destruct H as (dj & -> & H). cbn [bind].
    apply bind_ok in H. destruct H as (xs & Hxs & H).
    assert (Hxs' : length xs = N /\ match pre' with
              | Some (Dx_pre, v) => if (rc_z s =? 0)%Z then bcast2 fadd (flip bs x0) (map (fun d => (d / fabs v)%num) Dx_pre) else Ok (flip bs x0)
              | None => Ok (flip bs x0) end = Ok (flip bs xs)).
    { destruct pre as [[D v]|], pre' as [[D' v']|]; cbn [pre_arg] in Hpre; try contradiction.
      - destruct Hpre as (LD & -> & Ev). numR. rewrite Ev. destruct (rc_z s =? 0)%Z.
        + assert (Lm : length (map (fun d => d / Rabs v) D) = N) by (rewrite map_length; exact LD).
          rewrite bcast2_same in Hxs by lia. injection Hxs as <-. split; [rewrite map2_length; lia|].
          rewrite <- flip_map by (intros; apply opp_if_div). rewrite bcast2_same by (rewrite !flip_N; lia).
          rewrite flip_map2 by (intros; apply opp_if_add). reflexivity.
        + injection Hxs as <-. auto.
      - injection Hxs as <-. auto. }
    destruct Hxs' as [Lxs ->]. cbn [bind].
    apply bind_ok in H. destruct H as ([a1 o] & H1 & H). numR. rewrite (flip_j_sgn _ _ Hb), <- opp_if_scale, <- opp_if_add.
    destruct (newton_flip _ _ _ _ _ _ _ _ _ _ _ _ Lxs Hx0 S1 Hb H1) as (a1' & o' & -> & S1' & Lo & Eo1 & Eo2 & Eo3). cbn [bind].
    rewrite Eo1, Eo2, Eo3.
    apply bind_ok in H. destruct H as (Dx & HD & H). rewrite bcast2_same in HD by lia. injection HD as <-.
    rewrite bcast2_same by (rewrite !flip_N; lia). cbn [bind]. rewrite <- flip_map2 by (intros; apply opp_if_sub).
    set (Dx := map2 Rminus (no_x o) x0) in *. assert (LD : length Dx = N) by (unfold Dx; rewrite map2_length; lia).
    apply bind_ok in H. destruct H as ([i1 v1] & Hbig & H). destruct (biggest_flip _ _ _ _ LD L4 Hbig) as (b1 & v' & -> & Hb1 & -> & Hi). cbn [bind].
    rewrite flip_N by exact Lo. rewrite Lo in H. destruct (Nat.ltb N 2); [discriminate|].
    apply bind_ok in H. destruct H as (j & Hj' & H).
    assert (Hj2 : (if cf_jfixed cfg then Ok (flip_j bs (rc_j s)) else signed_index i1 (opp_if b1 v1)) = Ok (flip_j bs j)).
    { destruct (cf_jfixed cfg); [injection Hj' as <-; reflexivity|]. apply signed_flip; assumption. }
    rewrite Hj2. cbn [bind]. apply bind_ok in H. destruct H as (q & Hq & H). rewrite bcast2_same in Hq by lia. injection Hq as <-.
    rewrite bcast2_same by (rewrite flip_N; lia). cbn [bind]. rewrite <- flip_div.
    set (q := map2 Rdiv Dx (rc_dxmax s)) in *. assert (Lq : length q = N) by (unfold q; rewrite map2_length; lia).
    apply bind_ok in H. destruct H as (valid & Hv & H).
    assert (Hv2 : (if cf_jfixed cfg then qj <- py_get (flip bs q) (Z.abs (flip_j bs j) - 1);; Ok (Rleb (Rabs qj) (cf_dxtol cfg))
                   else Ok (forallb (fun v => Rleb (Rabs v) (cf_dxtol cfg)) (flip bs q))) = Ok valid).
    { destruct (cf_jfixed cfg).
      - rewrite flip_j_abs. apply bind_ok in Hv. destruct Hv as (qj & Hqj & Hv). destruct (get_flip _ _ _ Lq Hqj) as (b2 & _ & ->). cbn [bind].
        rewrite opp_if_abs. exact Hv.
      - rewrite forallb_abs by (rewrite bs_length; lia). exact Hv. }
    rewrite Hv2. cbn [bind].
    apply bind_ok in H. destruct H as ([[[dxmax' z'] b'] changed] & Hc & H).
    assert (Hc2 : (if cf_stepcontrol cfg then dxmax_control cfg (rc_dxmax s) dxmax0 (flip_j bs j) (flip_j bs (rc_j s)) (rc_z s) (no_success o) (rc_b s) (no_n o) (cf_nfev cfg - rc_npre s)
                   else Ok (rc_dxmax s, rc_z s, rc_b s, false)) = Ok (dxmax', z', b', changed) /\ length dxmax' = N).
    { destruct (cf_stepcontrol cfg); [rewrite control_flip; split; [exact Hc|eapply control_len; [exact L4|exact Hd0|exact Hc]]|].
      split; [exact Hc|]. injection Hc as <- <- <- <-. exact L4. }
    destruct Hc2 as [-> Ldx]. cbn [bind]. rewrite flip_j_eqb.
    pose proof (HdV (rc_dxmax s) _ _ S1') as S2.
    destruct (valid && no_success o)%bool.
    - apply bind_ok in H. destruct H as ([a3 y] & H3 & H).
      destruct (f_ext_flip _ _ _ _ _ _ _ _ _ _ Lo Hx0 S2 Hb H3) as (_ & a3' & -> & S3). cbn [bind].
      injection H as <- <- <-. split; [exact Lo|]. eexists. split; [reflexivity|]. repeat split; auto.
    - destruct (z' + 1 =? cf_cycl cfg)%Z.
      { injection H as <- <- <-. split; [exact Lo|]. eexists. split; [reflexivity|]. repeat split; auto. }
      destruct (_ && _ && _)%bool.
      { injection H as <- <- <-. split; [exact Lo|]. eexists. split; [reflexivity|]. repeat split; auto. }
      eapply IH; [|exact H]. repeat split; auto. destruct (no_success o); reflexivity.
  Qed.

  (** ** Increments *)
  Definition rec_flip (r r' : list R * AN) : Prop := fst r' = flip bs (fst r) /\ Sim (snd r) (snd r').

  Definition pf_flip (s s' : pfst R) : Prop :=
    Sim (ps_an s) (ps_an s') /\ length (ps_x s) = N /\ ps_x s' = flip bs (ps_x s) /\ ps_j s' = flip_j bs (ps_j s) /\ ps_jpre s' = ps_jpre s /\
    length (ps_dxmax s) = N /\ ps_dxmax s' = ps_dxmax s /\ ps_b s' = ps_b s /\ Forall2 rec_flip (ps_res s) (ps_res s') /\ ps_out s' = ps_out s.

  Lemma increment_flip cfg dxmax0 fuel s s' t stop : length dxmax0 = N -> pf_flip s s' ->
    increment solve argsortF g dg cfg dxmax0 fuel s = Ok (t, stop) ->
    exists t', increment solve argsortF g' dg' cfg dxmax0 fuel s' = Ok (t', stop) /\ pf_flip t t'.
  Proof.
    intros Hd0 (S1 & Lx & E2 & E3 & E4 & L5 & E5 & E6 & E7 & E8) H. unfold increment in *. cbv zeta in *.
    rewrite E2, E3, E4, E5, E6, E8.
    assert (Hfin : forall a a' x, length x = N -> Sim a a' -> Sim (set_lpf (last x 0) (set_Ured (removelast x) (set_Vred x a)))
       (set_lpf (last (flip bs x) 0) (set_Ured (removelast (flip bs x)) (set_Vred (flip bs x) a')))).
    { intros a a' x Hx Sa. destruct (flip_last x Hx) as [-> ->]. apply Hlpf, HUr; [|auto]. destruct (split_last x Hx) as (u & l & -> & Hu). rewrite removelast_last. exact Hu. }
    assert (Hres : forall (a a' : AN) x, Sim a a' -> Forall2 rec_flip (ps_res s ++ [(x, a)]) (ps_res s' ++ [(flip bs x, a')])).
    { intros a a' x Sa. apply Forall2_app; [exact E7|]. constructor; [|constructor]. split; auto. }
    destruct (ps_jpre s && negb (cf_jfixed cfg))%bool.
    - apply bind_ok in H. destruct H as (p & Hp & H).
      destruct (predict_flip _ _ _ _ _ _ _ Lx L5 S1 Hp) as (p' & -> & P1 & P2 & P3 & P4 & P5 & P6 & P7). cbn [bind].
      rewrite P2, P3, P4, flip_j_eq0. destruct (pr_success p).
      + injection H as <- <-. eexists. split; [reflexivity|]. unfold pf_flip. cbn. repeat split; auto.
      + apply bind_ok in H. destruct H as ([[r x] st] & Hr & H).
        assert (HR : rc_flip (Rc (pr_an p) 0%Z (pr_j p) (ps_dxmax s) (ps_b s) (pr_n p) (ps_out s ++ [MIncr]))
                             (Rc (pr_an p') 0%Z (flip_j bs (pr_j p)) (ps_dxmax s) (ps_b s) (pr_n p) (ps_out s ++ [MIncr]))) by (repeat split; auto).
        assert (Hpa : pre_arg (if negb (pr_j p =? 0)%Z then Some (pr_Dx p, pr_v p) else None) (if negb (pr_j p =? 0)%Z then Some (pr_Dx p', pr_v p') else None)).
        { destruct (negb _); cbn; auto. }
        destruct (recycle_flip _ _ _ _ _ Lx Hd0 Hpa _ _ _ _ _ _ HR Hr) as (Lx' & r' & -> & R1 & R2 & R3 & R4 & R5 & R6 & R7 & R8).
        cbn [bind]. injection H as <- <-. eexists. split; [reflexivity|]. unfold pf_flip. cbn.
        rewrite R3, R5, R6, R8. repeat split; auto.
    - apply bind_ok in H. destruct H as ([[r x] st] & Hr & H).
      assert (HR : rc_flip (Rc (ps_an s) 0%Z (ps_j s) (ps_dxmax s) (ps_b s) 0%Z (ps_out s ++ [MIncr]))
                           (Rc (ps_an s') 0%Z (flip_j bs (ps_j s)) (ps_dxmax s) (ps_b s) 0%Z (ps_out s ++ [MIncr]))) by (repeat split; auto).
      destruct (recycle_flip _ _ _ None None Lx Hd0 I _ _ _ _ _ _ HR Hr) as (Lx' & r' & -> & R1 & R2 & R3 & R4 & R5 & R6 & R7 & R8).
      cbn [bind]. injection H as <- <-. eexists. split; [reflexivity|]. unfold pf_flip. cbn.
      rewrite R3, R5, R6, R8. repeat split; auto.
  Qed.

  Lemma limit_flip cfg x r : length x = N -> beyond_limit cfg x = Ok r -> beyond_limit cfg (flip bs x) = Ok r.
  Proof.
    intros Hx H. unfold beyond_limit in *. destruct (cf_xlimit cfg) as [[k lim]|]; [|exact H].
    apply bind_ok in H. destruct H as (xk & Hk' & H). destruct (get_flip _ _ _ Hx Hk') as (b & _ & ->). cbn [bind]. numR.
    rewrite opp_if_abs. exact H.
  Qed.

  Lemma increments_flip cfg dxmax0 fuel : length dxmax0 = N -> forall k s s' t, pf_flip s s' ->
    increments solve argsortF g dg cfg dxmax0 fuel k s = Ok t ->
    exists t', increments solve argsortF g' dg' cfg dxmax0 fuel k s' = Ok t' /\ pf_flip t t'.
  Proof.
    intros Hd0. induction k as [|k IH]; intros s s' t HS H; cbn [increments] in *.
    - injection H as <-. eauto.
    - apply bind_ok in H. destruct H as ([s1 stop] & H1 & H).
      destruct (increment_flip _ _ _ _ _ _ _ Hd0 HS H1) as (s1' & -> & S1). cbn [bind].
      destruct stop; [injection H as <-; eauto|].
      destruct S1 as (A1 & A1' & A2 & A3 & A4 & A5' & A5 & A6 & A7 & A8). rewrite A2.
      apply bind_ok in H. destruct H as (lim & Hl & H). rewrite (limit_flip _ _ _ A1' Hl). cbn [bind].
      destruct lim.
      + injection H as <-. eexists. split; [reflexivity|]. unfold pf_flip. cbn. rewrite A8. repeat split; auto.
      + eapply IH; [|exact H]. unfold pf_flip. repeat split; auto.
  Qed.

  Lemma pathfollow_flip Ured a a' du dl j jpre cfg fuel t : (lb = true -> cf_jfixed cfg = true) -> length Ured = n -> Sim a a' ->
    pathfollow solve argsortF g dg Ured a (DxVec [du; dl]) j jpre cfg fuel = Ok t ->
    exists t', pathfollow solve argsortF g' dg' (flip bs Ured) a' (DxVec [du; dl]) (option_map (flip_j bs) j) jpre cfg fuel = Ok t' /\ pf_flip t t'.
  Proof.
    intros Hlb HU HS H. unfold pathfollow in *. cbv zeta in *. numR.
    assert (Lx : length (Ured ++ [0]) = N) by (rewrite app_length; cbn; lia).
    assert (Ex : flip bs Ured ++ [0] = flip bs (Ured ++ [0])). { rewrite flip_snoc, flip_n, opp_if_0 by exact HU. reflexivity. }
    rewrite Ex, flip_N by exact Lx. rewrite Lx in H. set (dx := expand_dxmax N (DxVec [du; dl])) in *.
    assert (Ld : length dx = N). { unfold dx, expand_dxmax. rewrite app_length, map_length, repeat_length. cbn. lia. }
    assert (Hst : forall j, pf_flip (Pf a (Ured ++ [0]) j jpre dx 4%Z [(Ured ++ [0], a)] [])
                                    (Pf a' (flip bs (Ured ++ [0])) (flip_j bs j) jpre dx 4%Z [(flip bs (Ured ++ [0]), a')] [])).
    { intros j0. unfold pf_flip. cbn. repeat split; auto. constructor; [split; auto|constructor]. }
    destruct (cf_jfixed cfg); cbn [negb] in *.
    2:{ assert (Elb : lb = false) by (destruct lb; [discriminate (Hlb eq_refl)|reflexivity]). specialize (Hst (Z.of_nat N)). rewrite flip_j_top in Hst by exact Elb. eapply increments_flip; eauto. }
    destruct j as [j|]; cbn [option_map]; [eapply increments_flip; eauto|].
    destruct (cf_incs cfg <=? 0)%Z; [|discriminate]. injection H as <-. specialize (Hst 0%Z). rewrite flip_j_0 in Hst. eauto.
  Qed.
End Path.
