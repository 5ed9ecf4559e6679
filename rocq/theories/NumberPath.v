(** * The path follower with the unknowns in another order (locked control component) *)
From Coq Require Import List ZArith Bool Arith Lia Permutation Reals Lra.
Import ListNotations.
From Verif Require Import Num NumR Vec Analysis Solver ListFacts SpecNumber PickFacts.
Local Open Scope R_scope.

Lemma fdot_perm l l' : Permutation l l' -> fdot (F := R) l l = fdot l' l'.
Proof. induction 1; cbn; numR; lra. Qed.
Lemma fnorm_pick p (l : list R) : order (length l) p -> fnorm (pick p l) = fnorm l.
Proof. intros H. unfold fnorm. rewrite (fdot_perm _ _ (pick_perm p l H)). reflexivity. Qed.
Lemma order_snoc n p : order n p -> order (S n) (p ++ [n]).
Proof. intros H. unfold order in *. rewrite seq_S. apply Permutation_app_tail, H. Qed.

(** The same parameters, another limited component. *)
Definition limit_cfg (xl : option (Z * option R)) (c : pfcfg R) : pfcfg R :=
  PfCfg (cf_jfixed c) xl (cf_incs c) (cf_nfev c) (cf_cycl c) (cf_ftol c) (cf_xtol c) (cf_stepcontrol c)
    (cf_maxfac c) (cf_minfac c) (cf_reduce c) (cf_increase c) (cf_dxtol c).

Section Path.
  Variable solve : list (list R) -> list R -> list R.
  Variable argsortF : list R -> list nat.
  Notation AN := (analysis R).
  Variables g g' : gfun R.
  Variables dg dg' : kfun R.
  Variable Sim : AN -> AN -> Prop.
  Variable p : list nat.
  Variable n : nat.
  Notation P := (p ++ [n]).
  Notation N := (S n).
  Hypothesis Hp : order n p.
  Hypothesis Hsolve : order_blind solve.
  Hypothesis Hsort : lists_places argsortF.
  Hypothesis Hg : forall V V0 w a a' b x, length V = N -> length V0 = N -> Sim a a' -> g V V0 w a = Ok (b, x) ->
    length x = n /\ exists b', g' (pick P V) (pick P V0) w a' = Ok (b', pick p x) /\ Sim b b'.
  Hypothesis Hk : forall V a a' b K, length V = n -> Sim a a' -> dg V a = Ok (b, K) ->
    length K = n /\ Forall (fun r => length r = n) K /\ exists b', dg' (pick p V) a' = Ok (b', map (pick p) (pick p K)) /\ Sim b b'.
  Hypothesis Hj : forall j j' a a', same_control p j j' -> Sim a a' -> Sim (set_j j a) (set_j j' a').
  Hypothesis HKm : forall v v' a a', Sim a a' -> Sim (set_Kmod v a) (set_Kmod v' a').
  Hypothesis HdV : forall v a a', Sim a a' -> Sim (set_dVmax v a) (set_dVmax v a').
  Hypothesis Hlpf : forall v a a', Sim a a' -> Sim (set_lpf v a) (set_lpf v a').
  Hypothesis HUr : forall v a a', length v = n -> Sim a a' -> Sim (set_Ured v a) (set_Ured (pick p v) a').
  Hypothesis HVr : forall v a a', length v = N -> Sim a a' -> Sim (set_Vred v a) (set_Vred (pick P v) a').
  Hypothesis Hf0 : forall a a', Sim a a' -> a_f0red a' = pick p (a_f0red a).

  Lemma HP : order N P.
  Proof. apply order_snoc, Hp. Qed.
  Lemma LP : length P = N.
  Proof. apply order_length, HP. Qed.
  Lemma WP {A} (x : list A) : length x = N -> within (length x) P.
  Proof. intros ->. apply order_within, HP. Qed.
  Lemma pick_N {A} (x : list A) : length x = N -> length (pick P x) = N.
  Proof. intros H. rewrite pick_length, LP by (apply WP, H). reflexivity. Qed.
  Lemma Pn {A} (x : list A) : length x = n -> length (pick p x) = n.
  Proof. intros H. rewrite pick_length by (rewrite H; apply order_within, Hp). apply order_length, Hp. Qed.
  Lemma Psnoc {A} (u : list A) l : length u = n -> pick P (u ++ [l]) = pick p u ++ [l].
  Proof. intros H. apply pick_snoc; [apply order_within, Hp|exact H]. Qed.
  Lemma split_last (x : list R) : length x = N -> exists u l, x = u ++ [l] /\ length u = n.
  Proof.
    intros H. destruct (exists_last (l := x)) as (u & l & ->); [intros ->; discriminate|]. exists u, l.
    rewrite app_length in H. cbn in H. split; [reflexivity|lia].
  Qed.
  Lemma pick_ends x : length x = N -> last (pick P x) 0 = last x 0 /\ removelast (pick P x) = pick p (removelast x) /\ length (removelast x) = n.
  Proof.
    intros H. destruct (split_last x H) as (u & l & -> & Hu). rewrite Psnoc by exact Hu. rewrite !last_snoc, !removelast_last. auto.
  Qed.

  (** ** Component numbers *)
  Definition at_ (k k' : Z) (i i' : nat) : Prop :=
    py_pos N (k - 1) = Ok i /\ py_pos N (k' - 1) = Ok i' /\ nth_error P i' = Some i.
  Lemma pos_last : py_pos N (-1) = Ok n.
  Proof.
    unfold py_pos. replace (0 <=? -1)%Z with false by reflexivity. cbn [andb]. replace (- Z.of_nat N <=? -1)%Z with true by (symmetry; apply Z.leb_le; lia).
    replace (-1 <? 0)%Z with true by reflexivity. cbn [andb]. f_equal. lia.
  Qed.
  Lemma unknown_at k k' : same_unknown p k k' -> exists i i', at_ k k' i i'.
  Proof.
    intros [[-> ->]|(i & i' & Hi & -> & ->)].
    - exists n, n. split; [|split].
      + apply pos_last.
      + apply pos_last.
      + rewrite nth_error_app2, (order_length _ _ Hp), Nat.sub_diag by (rewrite (order_length _ _ Hp); lia). reflexivity.
    - rewrite (order_length _ _ Hp) in Hi. exists i, i'.
      assert (i' < N)%nat by (rewrite <- LP; apply nth_error_Some; congruence).
      assert (i < N)%nat. { pose proof (order_within _ _ HP) as W. unfold within in W. rewrite Forall_forall in W. apply W. eapply nth_error_In, Hi. }
      unfold at_. replace (Z.of_nat (S i) - 1)%Z with (Z.of_nat i) by lia. replace (Z.of_nat (S i') - 1)%Z with (Z.of_nat i') by lia. rewrite !py_pos_nonneg, !Nat2Z.id by lia. auto.
  Qed.
  Lemma get_at k k' i i' (x : list R) v : at_ k k' i i' -> length x = N -> py_get x (k - 1) = Ok v -> py_get (pick P x) (k' - 1) = Ok v.
  Proof.
    intros (A1 & A2 & A3) Hx H. apply py_get_nth in H. destruct H as (m & Hk' & H). rewrite Hx, A1 in Hk'. injection Hk' as <-.
    apply py_get_nth. exists i'. rewrite pick_N, nth_pick, A3 by auto using WP. auto.
  Qed.

  (** ** Residual and bordered matrix *)
  Lemma f_ext_pick V0 j j' i i' Vmax w V a a' x y : same_control p j j' -> at_ (Z.abs j) (Z.abs j') i i' -> length V = N -> length V0 = N -> Sim a a' ->
    f_ext g V0 j Vmax w V a = Ok (x, y) ->
    length y = N /\ exists x', f_ext g' (pick P V0) j' Vmax w (pick P V) a' = Ok (x', pick P y) /\ Sim x x'.
  Proof.
    intros Hjj Hat HV HV0 HS H. unfold f_ext in *. apply bind_ok in H. destruct H as ([a1 gr] & H1 & H).
    destruct (Hg _ _ _ _ _ _ _ HV HV0 (Hj _ _ _ _ Hjj HS) H1) as (Lg & b' & E & HS').
    rewrite E. cbn [bind]. apply bind_ok in H. destruct H as (vj & Hv & H). injection H as <- <-.
    rewrite (get_at _ _ _ _ _ _ Hat HV Hv). cbn [bind].
    split; [rewrite app_length, map_length; cbn; lia|]. eexists. split; [|exact HS']. rewrite Psnoc by (rewrite map_length; exact Lg). rewrite pick_map. reflexivity.
  Qed.

  Lemma hstack_pick (K : list (list R)) (col : list R) (Kf : list (list R)) : length K = n -> Forall (fun r => length r = n) K -> hstack_col K col = Ok Kf ->
    hstack_col (map (pick p) (pick p K)) (pick p col) = Ok (map (pick P) (pick p Kf)) /\ length Kf = n /\ Forall (fun r => length r = N) Kf.
  Proof.
    intros HK HF H. unfold hstack_col in *. destruct (Nat.eqb_spec (length K) (length col)) as [E|E]; [|discriminate]. injection H as <-.
    rewrite map_length, !Pn, Nat.eqb_refl by lia. split; [|split].
    - f_equal. rewrite pick_map2 by exact E. pose proof (pick_Forall _ p _ HF) as HF'. revert HF'. generalize (pick p K), (pick p col).
      induction l as [|r l IH]; intros [|x l'] HF'; try reflexivity. cbn. rewrite Psnoc by exact (Forall_inv HF'). f_equal. apply IH. exact (Forall_inv_tail HF').
    - rewrite map2_length. lia.
    - clear - HF E. revert K E HF. induction col as [|x col IH]; intros [|row K] E HF; try discriminate E; constructor.
      + rewrite app_length, (Forall_inv HF). cbn. lia.
      + apply IH; [cbn in E; lia|]. exact (Forall_inv_tail HF).
  Qed.

  Lemma ctrl_pick j j' i i' qc : at_ (Z.abs j) (Z.abs j') i i' -> ctrl_row N j = Ok qc -> length qc = N /\ ctrl_row N j' = Ok (pick P qc).
  Proof.
    intros (A1 & A2 & A3) H. unfold ctrl_row in *. rewrite A1 in H. rewrite A2. cbn [bind] in *.
    assert (E : qc = set_nth i 1 (repeat 0 N)) by (numR; congruence). subst qc. clear H.
    split; [rewrite set_nth_length, repeat_length; reflexivity|]. numR. f_equal.
    rewrite (pick_set_nth P _ i' i) by (first [apply WP, repeat_length|exact (order_NoDup _ _ HP)|exact A3]).
    rewrite pick_repeat, LP by (apply order_within, HP). reflexivity.
  Qed.

  Lemma dfdx_pick j j' i i' V a a' x M : same_control p j j' -> at_ (Z.abs j) (Z.abs j') i i' -> length V = N -> Sim a a' -> dfdx dg j V a = Ok (x, M) ->
    length M = N /\ Forall (fun r => length r = N) M /\
    exists x', dfdx dg' j' (pick P V) a' = Ok (x', map (pick P) (pick P M)) /\ Sim x x'.
  Proof.
    intros Hjj Hat HV HS H. unfold dfdx in *. cbv zeta in *. apply bind_ok in H. destruct H as (qc & Hq & H). rewrite pick_N by exact HV.
    rewrite HV in Hq. destruct (ctrl_pick _ _ _ _ _ Hat Hq) as (Lq & Hq'). rewrite Hq'. cbn [bind].
    apply bind_ok in H. destruct H as ([a1 K] & H1 & H). destruct (pick_ends V HV) as (_ & Er & Lr).
    rewrite Er. destruct (Hk _ _ _ _ _ Lr (Hj _ _ _ _ Hjj HS) H1) as (LK & FK & b' & E & HS'). rewrite E. cbn [bind].
    rewrite (Hf0 _ _ HS'), <- (pick_map fopp). apply bind_ok in H. destruct H as (Kf & HK & H).
    destruct (hstack_pick _ _ _ LK FK HK) as (HK' & LKf & FKf). rewrite HK'. cbn [bind].
    destruct (forallb _ Kf); [|discriminate]. injection H as <- <-. rewrite pick_N by exact Lq.
    assert (E2 : forallb (fun row => Nat.eqb (length row) N) (map (pick P) (pick p Kf)) = true).
    { apply forallb_forall. intros r Hr. apply in_map_iff in Hr. destruct Hr as (r0 & <- & Hr). apply Nat.eqb_eq, pick_N.
      pose proof (pick_Forall _ p _ FKf) as F. rewrite Forall_forall in F. apply F, Hr. }
    rewrite E2. split; [rewrite app_length; cbn; lia|]. split; [apply Forall_app; split; [assumption|constructor; [exact Lq|constructor]]|].
    rewrite Psnoc by exact LKf. rewrite map_app. cbn [map]. eexists. split; [reflexivity|]. apply HKm, HS'.
  Qed.

  (** ** Newton *)
  Definition no_pick (o o' : newton_out R) : Prop :=
    length (no_x o) = N /\ no_x o' = pick P (no_x o) /\ no_success o' = no_success o /\ no_n o' = no_n o.

  Lemma newton_pick V0 j j' i i' Vmax x nfev ftol xtol a a' r o : same_control p j j' -> at_ (Z.abs j) (Z.abs j') i i' -> length x = N -> length V0 = N -> Sim a a' ->
    newton solve (f_ext g V0 j Vmax false) (dfdx dg j) x nfev ftol xtol a = Ok (r, o) ->
    exists r' o', newton solve (f_ext g' (pick P V0) j' Vmax false) (dfdx dg' j') (pick P x) nfev ftol xtol a' = Ok (r', o') /\
      Sim r r' /\ no_pick o o'.
  Proof.
    intros Hjj Hat Hx HV0 HS. unfold newton. generalize (Z.to_nat nfev), 0%Z, (@None (R * R)).
    intros k. revert x a a' Hx HS. induction k as [|k IH]; intros x a a' Hx HS m prev H; cbn [newton_loop] in *.
    - destruct prev as [[p1 p2]|]; [|discriminate]. injection H as <- <-. do 2 eexists. split; [reflexivity|]. split; [exact HS|]. repeat split; auto.
    - apply bind_ok in H. destruct H as ([s1 Km] & H1 & H).
      destruct (dfdx_pick _ _ _ _ _ _ _ _ _ Hjj Hat Hx HS H1) as (LM & FM & s1' & -> & S1). cbn [bind].
      apply bind_ok in H. destruct H as ([s2 fv] & H2 & H).
      destruct (f_ext_pick _ _ _ _ _ _ _ _ _ _ _ _ Hjj Hat Hx HV0 S1 H2) as (Lf & s2' & -> & S2). cbn [bind].
      apply bind_ok in H. destruct H as (x' & Hx' & H). numR.
      assert (Lm : length (map Ropp fv) = N) by (rewrite map_length; exact Lf).
      assert (Ld : length (solve Km (map Ropp fv)) = N). { rewrite (proj1 Hsolve); lia. }
      assert (Ed : solve (map (pick P) (pick P Km)) (map Ropp (pick P fv)) = pick P (solve Km (map Ropp fv))).
      { rewrite <- (pick_map Ropp). apply (proj2 Hsolve).
        - rewrite Lm. apply HP.
        - lia.
        - rewrite Lm. exact FM. }
      rewrite Ed. rewrite bcast2_same in Hx' by lia. injection Hx' as <-.
      rewrite bcast2_same by (rewrite !pick_N by assumption; reflexivity). cbn [bind].
      rewrite <- pick_map2 by lia.
      set (x' := map2 Rplus x (solve Km (map Ropp fv))) in *.
      assert (Lx' : length x' = N) by (unfold x'; rewrite map2_length; lia).
      apply bind_ok in H. destruct H as ([s3 fv'] & H3 & H).
      destruct (f_ext_pick _ _ _ _ _ _ _ _ _ _ _ _ Hjj Hat Lx' HV0 S2 H3) as (Lf' & s3' & -> & S3). cbn [bind]. cbv zeta in *.
      rewrite !fnorm_pick by (rewrite ?Ld, ?Lf'; apply HP).
      destruct (_ && _)%bool.
      + injection H as <- <-. do 2 eexists. split; [reflexivity|]. split; [exact S3|]. repeat split; auto.
      + eapply IH; eassumption.
  Qed.

  (** ** Step bounds are the same for all displacements *)
  Definition uniform (d : list R) : Prop := exists a b, d = repeat a n ++ [b].
  Lemma uniform_pick d : uniform d -> length d = N /\ pick P d = d.
  Proof.
    intros (a & b & ->). split; [rewrite app_length, repeat_length; cbn; lia|]. rewrite Psnoc by apply repeat_length.
    rewrite pick_repeat by (apply order_within, Hp). rewrite (order_length _ _ Hp). reflexivity.
  Qed.
  Lemma uniform_map f d : uniform d -> uniform (map f d).
  Proof. intros (a & b & ->). exists (f a), (f b). rewrite map_app. f_equal. clear. induction n as [|k IH]; cbn; congruence. Qed.

  (** ** Recycling *)
  Definition rc_pick (s s' : rcst R) : Prop :=
    Sim (rc_an s) (rc_an s') /\ rc_z s' = rc_z s /\ same_control p (rc_j s) (rc_j s') /\ uniform (rc_dxmax s) /\ rc_dxmax s' = rc_dxmax s /\
    rc_b s' = rc_b s /\ rc_npre s' = rc_npre s /\ rc_out s' = rc_out s.

  Lemma control_uniform cfg d d0 j j0 z ok b m nf d' z' b' ch : uniform d -> uniform d0 ->
    dxmax_control cfg d d0 j j0 z ok b m nf = Ok (d', z', b', ch) -> uniform d'.
  Proof.
    intros Hd Hd0 H. unfold dxmax_control in H. apply bind_ok in H. destruct H as (u & _ & H). apply bind_ok in H. destruct H as (u0 & _ & H). cbv zeta in H.
    repeat match type of H with context [if ?c then _ else _] => destruct c end; try discriminate H; injection H as <- <- <- <-; auto using uniform_map.
  Qed.
  Lemma control_same cfg xl d d0 j j' z ok b m nf :
    dxmax_control (limit_cfg xl cfg) d d0 j' j' z ok b m nf = dxmax_control cfg d d0 j j z ok b m nf.
  Proof. unfold dxmax_control. rewrite !Z.eqb_refl. reflexivity. Qed.
  Lemma biggest_total Dx d : length Dx = N -> length d = N -> exists i v, biggest argsortF Dx d = Ok (i, v).
  Proof.
    intros H1 H2. unfold biggest. rewrite bcast2_same by lia. cbn [bind]. cbv zeta. set (q := map2 fdiv Dx d).
    assert (Lq : length q = N) by (unfold q; rewrite map2_length; lia).
    pose proof (Hsort (map fabs q)) as Ho. rewrite map_length, Lq in Ho. pose proof (order_length _ _ Ho) as Lo.
    destruct (py_get (argsortF (map fabs q)) (-1)) as [i| |] eqn:E.
    - cbn [bind]. apply py_get_nth in E. destruct E as (k & _ & E). pose proof (order_within _ _ Ho) as W. unfold within in W. rewrite Forall_forall in W.
      specialize (W i (nth_error_In _ _ E)). destruct (nth_error q i) as [v|] eqn:Ev; [|apply nth_error_None in Ev; lia]. cbn [bind]. eauto.
    - exfalso. unfold py_get in E. rewrite Lo, pos_last in E. cbn [bind] in E.
      destruct (nth_error (argsortF (map fabs q)) n) eqn:Eq; [discriminate|]. apply nth_error_None in Eq. lia.
    - exfalso. unfold py_get in E. rewrite Lo, pos_last in E. cbn [bind] in E. destruct (nth_error _ _) in E; discriminate.
  Qed.

  Lemma recycle_pick cfg xl x0 dxmax0 : cf_jfixed cfg = true -> length x0 = N -> uniform dxmax0 -> forall fuel s s' r x stop, rc_pick s s' ->
    recycle solve argsortF g dg cfg x0 dxmax0 None fuel s = Ok (r, x, stop) ->
    length x = N /\ exists r', recycle solve argsortF g' dg' (limit_cfg xl cfg) (pick P x0) dxmax0 None fuel s' = Ok (r', pick P x, stop) /\ rc_pick r r'.
  Proof.
    intros Hfix Hx0 Hd0. induction fuel as [|fuel IH]; intros s s' r x stop HS H; [discriminate|].
    destruct HS as (S1 & E2 & E3 & U4 & E4 & E5 & E6 & E7). destruct (unknown_at _ _ (proj2 E3)) as (i & i' & Hat). destruct (uniform_pick _ U4) as [L4 P4].
    cbn [recycle] in *. cbv zeta in *. rewrite E2, E4, E5, E6, E7.
    apply bind_ok in H. destruct H as (xj & Hxj & H). rewrite (get_at _ _ _ _ _ _ Hat Hx0 Hxj). cbn [bind].
    apply bind_ok in H. destruct H as (dj & Hdj & H). pose proof (get_at _ _ _ _ _ _ Hat L4 Hdj) as Hdj'. rewrite P4 in Hdj'. rewrite Hdj'. cbn [bind].
    cbn [bind] in H. rewrite (proj1 E3).
    change (cf_nfev (limit_cfg xl cfg)) with (cf_nfev cfg). change (cf_ftol (limit_cfg xl cfg)) with (cf_ftol cfg). change (cf_xtol (limit_cfg xl cfg)) with (cf_xtol cfg).
    change (cf_jfixed (limit_cfg xl cfg)) with (cf_jfixed cfg). change (cf_dxtol (limit_cfg xl cfg)) with (cf_dxtol cfg). change (cf_stepcontrol (limit_cfg xl cfg)) with (cf_stepcontrol cfg).
    change (cf_cycl (limit_cfg xl cfg)) with (cf_cycl cfg). rewrite Hfix in *.
    apply bind_ok in H. destruct H as ([a1 o] & H1 & H).
    destruct (newton_pick _ _ _ _ _ _ _ _ _ _ _ _ _ _ E3 Hat Hx0 Hx0 S1 H1) as (a1' & o' & -> & S1' & Lo & Eo1 & Eo2 & Eo3). cbn [bind].
    rewrite Eo1, Eo2, Eo3.
    apply bind_ok in H. destruct H as (Dx & HD & H). rewrite bcast2_same in HD by lia. injection HD as <-.
    rewrite bcast2_same by (rewrite !pick_N; lia). cbn [bind]. rewrite <- pick_map2 by lia.
    change (map2 Rminus (no_x o) x0) with (map2 fsub (no_x o) x0) in H. set (Dx := map2 fsub (no_x o) x0) in *. assert (LD : length Dx = N) by (unfold Dx; rewrite map2_length; lia).
    apply bind_ok in H. destruct H as ([i1 v1] & _ & H). destruct (biggest_total (pick P Dx) (rc_dxmax s)) as (i2 & v2 & ->); [apply pick_N, LD|exact L4|]. cbn [bind].
    rewrite pick_N by exact Lo. rewrite Lo in H. destruct (Nat.ltb N 2); [discriminate|]. cbn [bind] in *.
    apply bind_ok in H. destruct H as (q & Hq & H). rewrite bcast2_same in Hq by lia. injection Hq as <-.
    rewrite bcast2_same by (rewrite pick_N by exact LD; lia). cbn [bind]. replace (map2 fdiv (pick P Dx) (rc_dxmax s)) with (pick P (map2 fdiv Dx (rc_dxmax s))) by (rewrite pick_map2, P4 by lia; reflexivity).
    change (map2 Rdiv Dx (rc_dxmax s)) with (map2 fdiv Dx (rc_dxmax s)) in H. set (q := map2 fdiv Dx (rc_dxmax s)) in *. assert (Lq : length q = N) by (unfold q; rewrite map2_length; lia).
    apply bind_ok in H. destruct H as (valid & Hv & H). apply bind_ok in Hv. destruct Hv as (qj & Hqj & Hv).
    rewrite (get_at _ _ _ _ _ _ Hat Lq Hqj). cbn [bind]. injection Hv as <-.
    apply bind_ok in H. destruct H as ([[[dxmax' z'] b'] changed] & Hc & H).
    assert (Hc2 : (if cf_stepcontrol cfg then dxmax_control (limit_cfg xl cfg) (rc_dxmax s) dxmax0 (rc_j s') (rc_j s') (rc_z s) (no_success o) (rc_b s) (no_n o) (cf_nfev cfg - rc_npre s)
                   else Ok (rc_dxmax s, rc_z s, rc_b s, false)) = Ok (dxmax', z', b', changed) /\ uniform dxmax').
    { destruct (cf_stepcontrol cfg); [rewrite (control_same _ _ _ _ (rc_j s)); split; [exact Hc|eapply control_uniform; [exact U4|exact Hd0|exact Hc]]|].
      split; [exact Hc|]. injection Hc as <- <- <- <-. exact U4. }
    destruct Hc2 as [-> Ldx]. cbn [bind]. rewrite !Z.eqb_refl in *. cbn [andb] in *.
    pose proof (HdV (rc_dxmax s) _ _ S1') as S2.
    destruct (_ && no_success o)%bool.
    - apply bind_ok in H. destruct H as ([a3 y] & H3 & H).
      destruct (f_ext_pick _ _ _ _ _ _ _ _ _ _ _ _ E3 Hat Lo Hx0 S2 H3) as (_ & a3' & -> & S3). cbn [bind].
      injection H as <- <- <-. split; [exact Lo|]. eexists. split; [reflexivity|]. repeat split; auto; try apply E3; try apply A3.
    - destruct (z' + 1 =? cf_cycl cfg)%Z.
      { injection H as <- <- <-. split; [exact Lo|]. eexists. split; [reflexivity|]. repeat split; auto; try apply E3; try apply A3. }
      destruct (_ && _)%bool.
      { injection H as <- <- <-. split; [exact Lo|]. eexists. split; [reflexivity|]. repeat split; auto; try apply E3; try apply A3. }
      eapply IH; [|exact H]. unfold rc_pick. cbn. repeat (split; [first [assumption|reflexivity|destruct (no_success o); exact E3]|]); reflexivity.
  Qed.

  (** ** Increments *)
  Definition rec_pick (r r' : list R * AN) : Prop := fst r' = pick P (fst r) /\ Sim (snd r) (snd r').

  Definition pf_pick (s s' : pfst R) : Prop :=
    Sim (ps_an s) (ps_an s') /\ length (ps_x s) = N /\ ps_x s' = pick P (ps_x s) /\ same_control p (ps_j s) (ps_j s') /\ ps_jpre s' = ps_jpre s /\
    uniform (ps_dxmax s) /\ ps_dxmax s' = ps_dxmax s /\ ps_b s' = ps_b s /\ Forall2 rec_pick (ps_res s) (ps_res s') /\ ps_out s' = ps_out s.

  Lemma increment_pick cfg xl dxmax0 fuel s s' t stop : cf_jfixed cfg = true -> uniform dxmax0 -> pf_pick s s' ->
    increment solve argsortF g dg cfg dxmax0 fuel s = Ok (t, stop) ->
    exists t', increment solve argsortF g' dg' (limit_cfg xl cfg) dxmax0 fuel s' = Ok (t', stop) /\ pf_pick t t'.
  Proof.
    intros Hfix Hd0 (S1 & Lx & E2 & E3 & E4 & L5 & E5 & E6 & E7 & E8) H. unfold increment in *. cbv zeta in *. change (cf_jfixed (limit_cfg xl cfg)) with (cf_jfixed cfg).
    rewrite Hfix in *. cbn [negb] in *. rewrite andb_false_r in *. rewrite E2, E4, E5, E6, E8.
    apply bind_ok in H. destruct H as ([[r x] st] & Hr & H).
    assert (HR : rc_pick (Rc (ps_an s) 0%Z (ps_j s) (ps_dxmax s) (ps_b s) 0%Z (ps_out s ++ [MIncr]))
                         (Rc (ps_an s') 0%Z (ps_j s') (ps_dxmax s) (ps_b s) 0%Z (ps_out s ++ [MIncr]))) by (repeat split; auto; try apply E3; try apply A3).
    destruct (recycle_pick _ xl _ _ Hfix Lx Hd0 _ _ _ _ _ _ HR Hr) as (Lx' & r' & -> & R1 & R2 & R3 & R4 & R5 & R6 & R7 & R8).
    cbn [bind]. injection H as <- <-. eexists. split; [reflexivity|]. unfold pf_pick. cbn [ps_an ps_x ps_j ps_jpre ps_dxmax ps_b ps_res ps_out].
    numR. destruct (pick_ends x Lx') as (-> & -> & Lrx). rewrite R5, R6, R8.
    assert (Sf : Sim (set_lpf (last x 0) (set_Ured (removelast x) (set_Vred x (rc_an r)))) (set_lpf (last x 0) (set_Ured (pick p (removelast x)) (set_Vred (pick P x) (rc_an r'))))) by auto.
    repeat (split; [first [assumption|reflexivity]|]). split; [|reflexivity]. apply Forall2_app; [exact E7|]. constructor; [|constructor]. split; auto.
  Qed.

  Lemma limit_pick cfg xl x r : same_option (same_limit p) (cf_xlimit cfg) xl -> length x = N -> beyond_limit cfg x = Ok r -> beyond_limit (limit_cfg xl cfg) (pick P x) = Ok r.
  Proof.
    intros Hxl Hx H. unfold beyond_limit in *. cbn [limit_cfg cf_xlimit]. destruct (cf_xlimit cfg) as [[k lim]|], xl as [[k' lim']|]; try contradiction; [|exact H].
    destruct Hxl as [Hk' El]. cbn [fst snd] in *. subst lim'. destruct (unknown_at _ _ Hk') as (i & i' & Hat).
    apply bind_ok in H. destruct H as (xk & Hx' & H). rewrite (get_at _ _ _ _ _ _ Hat Hx Hx'). cbn [bind]. exact H.
  Qed.

  Lemma increments_pick cfg xl dxmax0 fuel : cf_jfixed cfg = true -> same_option (same_limit p) (cf_xlimit cfg) xl -> uniform dxmax0 -> forall k s s' t, pf_pick s s' ->
    increments solve argsortF g dg cfg dxmax0 fuel k s = Ok t ->
    exists t', increments solve argsortF g' dg' (limit_cfg xl cfg) dxmax0 fuel k s' = Ok t' /\ pf_pick t t'.
  Proof.
    intros Hfix Hxl Hd0. induction k as [|k IH]; intros s s' t HS H; cbn [increments] in *.
    - injection H as <-. eauto.
    - apply bind_ok in H. destruct H as ([s1 stop] & H1 & H).
      destruct (increment_pick _ xl _ _ _ _ _ _ Hfix Hd0 HS H1) as (s1' & -> & S1). cbn [bind].
      destruct stop; [injection H as <-; eauto|].
      destruct S1 as (A1 & A1' & A2 & A3 & A4 & A5' & A5 & A6 & A7 & A8). rewrite A2.
      apply bind_ok in H. destruct H as (lim & Hl & H). rewrite (limit_pick _ xl _ _ Hxl A1' Hl). cbn [bind].
      destruct lim.
      + injection H as <-. eexists. split; [reflexivity|]. unfold pf_pick. cbn. rewrite A8. repeat split; auto; try apply E3; try apply A3.
      + eapply IH; [|exact H]. unfold pf_pick. repeat split; auto; try apply E3; try apply A3.
  Qed.

  Lemma pathfollow_pick Ured a a' du dl j j' jpre cfg xl fuel t : cf_jfixed cfg = true -> same_option (same_limit p) (cf_xlimit cfg) xl -> same_option (same_control p) j j' -> length Ured = n -> Sim a a' ->
    pathfollow solve argsortF g dg Ured a (DxVec [du; dl]) j jpre cfg fuel = Ok t ->
    exists t', pathfollow solve argsortF g' dg' (pick p Ured) a' (DxVec [du; dl]) j' jpre (limit_cfg xl cfg) fuel = Ok t' /\ pf_pick t t'.
  Proof.
    intros Hfix Hxl Hjj HU HS H. unfold pathfollow in *. cbv zeta in *. numR. change (cf_jfixed (limit_cfg xl cfg)) with (cf_jfixed cfg). change (cf_incs (limit_cfg xl cfg)) with (cf_incs cfg).
    rewrite Hfix in *. cbn [negb] in *.
    assert (Lx : length (Ured ++ [0]) = N) by (rewrite app_length; cbn; lia).
    rewrite <- Psnoc by exact HU. rewrite pick_N by exact Lx. rewrite Lx in H. set (dx := expand_dxmax N (DxVec [du; dl])) in *.
    assert (Ld : uniform dx).
    { exists (1 * du), dl. unfold dx, expand_dxmax. replace (N - 1)%nat with n by lia. f_equal. numR. clear. induction n as [|k IH]; cbn; congruence. }
    assert (Hst : forall j j', same_control p j j' -> pf_pick (Pf a (Ured ++ [0]) j jpre dx 4%Z [(Ured ++ [0], a)] [])
                                    (Pf a' (pick P (Ured ++ [0])) j' jpre dx 4%Z [(pick P (Ured ++ [0]), a')] [])).
    { intros j0 j0' H0. unfold pf_pick. cbn [ps_an ps_x ps_j ps_jpre ps_dxmax ps_b ps_res ps_out]. repeat (split; [first [assumption|reflexivity]|]). split; [|reflexivity]. constructor; [split; auto|constructor]. }
    destruct j as [j|], j' as [j'|]; try contradiction; [eapply increments_pick; eauto|].
    destruct (cf_incs cfg <=? 0)%Z; [|discriminate]. injection H as <-. specialize (Hst 0%Z 0%Z (conj eq_refl (or_introl (conj eq_refl eq_refl)))). eauto.
  Qed.
End Path.
