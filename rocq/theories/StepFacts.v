(** * Step control: bounds of the step limits and termination of an increment *)
From Coq Require Import List ZArith Bool Arith Lia Reals Lra.
Import ListNotations.
From Verif Require Import Num NumR Vec Analysis Solver ListFacts SpecSolver SpecStep SolverFacts PathFacts.

(** ** No primitive times out *)
Lemma bind_timeout {A B} (r : res A) (k : A -> res B) :
  bind r k = Timeout -> r = Timeout \/ exists a, r = Ok a /\ k a = Timeout.
Proof. destruct r; cbn; intros H; eauto; discriminate. Qed.

Lemma py_pos_nt n i : py_pos n i <> Timeout.
Proof. unfold py_pos. destruct (_ && _); [discriminate|]. destruct (_ && _); discriminate. Qed.
Lemma py_get_nt {A} (l : list A) i : py_get l i <> Timeout.
Proof.
  unfold py_get. intros H. apply bind_timeout in H. destruct H as [H|(p & _ & H)].
  - exact (py_pos_nt _ _ H).
  - destruct (nth_error l p); discriminate.
Qed.
Lemma bcast2_nt {A B C} (f : A -> B -> C) a b : bcast2 f a b <> Timeout.
Proof.
  unfold bcast2. destruct (_ =? _); [discriminate|].
  destruct a as [|x [|y a]]; destruct b as [|u [|w b]]; discriminate.
Qed.

Section Nt.
  Context {F : Type} `{NF : Num F}.
  Variable solve : list (list F) -> list F -> list F.
  Variable argsortF : list F -> list nat.
  Variables (g : gfun F) (dg : kfun F) (cfg : pfcfg F).

  Lemma biggest_nt Dx d : biggest argsortF Dx d <> Timeout.
  Proof.
    unfold biggest. intros H. apply bind_timeout in H. destruct H as [H|(q & _ & H)].
    { exact (bcast2_nt _ _ _ H). }
    apply bind_timeout in H. destruct H as [H|(i & _ & H)]; [exact (py_get_nt _ _ H)|].
    apply bind_timeout in H. destruct H as [H|(v & _ & H)]; [|discriminate].
    destruct (nth_error q i); discriminate.
  Qed.
  Lemma signed_index_nt i v : signed_index (F:=F) i v <> Timeout.
  Proof. unfold signed_index. destruct (fisnan v); discriminate. Qed.
  Lemma dxmax_control_nt dxmax dxmax0 j j0 z ok b n nfev :
    dxmax_control cfg dxmax dxmax0 j j0 z ok b n nfev <> Timeout.
  Proof.
    unfold dxmax_control. intros H. apply bind_timeout in H. destruct H as [H|(d & _ & H)].
    { exact (py_get_nt _ _ H). }
    apply bind_timeout in H. destruct H as [H|(d0 & _ & H)]; [exact (py_get_nt _ _ H)|].
    repeat match type of H with (if ?c then _ else _) = _ => destruct c | (let _ := _ in _) = _ => cbv zeta in H end;
      discriminate.
  Qed.

  Hypothesis NT : no_timeout g dg.

  Lemma f_ext_nt V0 j m w V an : f_ext g V0 j m w V an <> Timeout.
  Proof.
    unfold f_ext. intros H. apply bind_timeout in H. destruct H as [H|([a v] & _ & H)].
    { exact (proj1 NT _ _ _ _ H). }
    apply bind_timeout in H. destruct H as [H|(vj & _ & H)]; [exact (py_get_nt _ _ H)|discriminate].
  Qed.
  Lemma dfdx_nt j V an : dfdx dg j V an <> Timeout.
  Proof.
    unfold dfdx, ctrl_row, hstack_col. intros H. cbv zeta in H.
    apply bind_timeout in H. destruct H as [H|(q & _ & H)].
    { apply bind_timeout in H. destruct H as [H|(p & _ & H)]; [exact (py_pos_nt _ _ H)|discriminate]. }
    apply bind_timeout in H. destruct H as [H|([a K] & _ & H)]; [exact (proj2 NT _ _ H)|].
    apply bind_timeout in H. destruct H as [H|(Kf & _ & H)].
    - destruct (_ =? _); discriminate.
    - destruct (forallb _ _); discriminate.
  Qed.
  Lemma newton_nt V0 j m xs nfev ftol xtol an :
    newton solve (f_ext g V0 j m false) (dfdx dg j) xs nfev ftol xtol an <> Timeout.
  Proof.
    unfold newton. generalize (Z.to_nat nfev), 0%Z, xs, (@None (F * F)), an.
    induction n as [|k IH]; intros n0 x prev s H; cbn [newton_loop] in H.
    - destruct prev as [[? ?]|]; discriminate.
    - apply bind_timeout in H. destruct H as [H|([s1 Km] & _ & H)]; [exact (dfdx_nt _ _ _ H)|].
      apply bind_timeout in H. destruct H as [H|([s2 fv] & _ & H)]; [exact (f_ext_nt _ _ _ _ _ _ H)|].
      cbv zeta in H.
      apply bind_timeout in H. destruct H as [H|(x' & _ & H)]; [exact (bcast2_nt _ _ _ H)|].
      apply bind_timeout in H. destruct H as [H|([s3 fv'] & _ & H)]; [exact (f_ext_nt _ _ _ _ _ _ H)|].
      destruct (_ && _); [discriminate|]. exact (IH _ _ _ _ H).
  Qed.

  (** If the recycle loop needs more than [S fuel] passes, then the first pass
      asks for another one and that needs more than [fuel]. *)
  Lemma recycle_timeout x0 dxmax0 pre fuel s :
    recycle solve argsortF g dg cfg x0 dxmax0 pre (S fuel) s = Timeout ->
    exists xmax ts t j valid dxmax' z' b' changed,
      pass solve argsortF g dg cfg x0 dxmax0 pre s xmax ts t j valid dxmax' z' b' changed /\
      let cv := converged (cf_ftol cfg) (cf_xtol cfg) t in
      valid && cv = false /\ (z' + 1)%Z <> cf_cycl cfg /\
      recycle solve argsortF g dg cfg x0 dxmax0 pre fuel
            (Rc (set_dVmax (rc_dxmax s) (it_s t)) (z' + 1)%Z (if cv then j else rc_j s) dxmax' b' 0%Z
                (rc_out s ++ [MRecycle])) = Timeout.
  Proof.
    intros H. cbn [recycle] in H.
    apply bind_timeout in H. destruct H as [H|(xj & Hxj & H)]; [destruct (py_get_nt _ _ H)|].
    apply bind_timeout in H. destruct H as [H|(dj & Hdj & H)]; [destruct (py_get_nt _ _ H)|].
    apply bind_timeout in H. destruct H as [H|(xs & Hxs & H)].
    { destruct pre as [[Dp v]|]; [|discriminate]. destruct (rc_z s =? 0)%Z; [|discriminate].
      destruct (bcast2_nt _ _ _ H). }
    cbv zeta in H.
    apply bind_timeout in H. destruct H as [H|([an1 o] & Hnw & H)]; [destruct (newton_nt _ _ _ _ _ _ _ _ H)|].
    apply newton_iff in Hnw.
    destruct Hnw as (ts & t & Ht & Hnc & -> & Hox & Hos & Hon & _ & _ & Hle & Hex).
    rewrite Hox, Hos, Hon in H. rewrite Hon in Hle, Hex. rewrite Hos in Hex.
    apply bind_timeout in H. destruct H as [H|(Dx & HDx & H)]; [destruct (bcast2_nt _ _ _ H)|].
    apply bind_timeout in H. destruct H as [H|([i1 v1] & Hbig & H)]; [destruct (biggest_nt _ _ H)|].
    destruct (Nat.ltb_spec (length (it_x t)) 2) as [|Hlen]; [discriminate|].
    apply bind_timeout in H. destruct H as [H|(j & Hj & H)].
    { destruct (cf_jfixed cfg); [discriminate|]. destruct (signed_index_nt _ _ H). }
    apply bind_timeout in H. destruct H as [H|(q & Hq & H)]; [destruct (bcast2_nt _ _ _ H)|].
    apply bind_timeout in H. destruct H as [H|(valid & Hv & H)].
    { destruct (cf_jfixed cfg); [|discriminate].
      apply bind_timeout in H. destruct H as [H|(qj & _ & H)]; [destruct (py_get_nt _ _ H)|discriminate]. }
    apply bind_timeout in H. destruct H as [H|([[[dxmax' z'] b'] changed] & Hdc & H)].
    { destruct (cf_stepcontrol cfg); [destruct (dxmax_control_nt _ _ _ _ _ _ _ _ _ H)|discriminate]. }
    set (xmax := fadd xj (fmul dj (fofZ (Z.sgn (rc_j s))))) in *.
    exists xmax, ts, t, j, valid, dxmax', z', b', changed.
    split.
    { exists xs, Dx, q, i1, v1. repeat match goal with |- _ /\ _ => split end; try assumption.
      - exists xj, dj. repeat split; try assumption.
      - destruct pre as [[Dp v]|]; [|injection Hxs; auto].
        destruct (Z.eqb (rc_z s) 0); [assumption|injection Hxs; auto].
      - destruct (cf_jfixed cfg); [injection Hj; auto|assumption].
      - destruct (cf_jfixed cfg).
        + apply bind_ok in Hv. destruct Hv as (qj & Hqj & Hv). injection Hv as <-. eauto.
        + injection Hv; auto.
      - destruct (cf_stepcontrol cfg); [assumption|]. injection Hdc as <- <- <- <-. auto. }
    cbv zeta. clear Hbig Hdc Hxs. 
    destruct (valid && converged (cf_ftol cfg) (cf_xtol cfg) t).
    { apply bind_timeout in H. destruct H as [H|([an3 v] & _ & H)]; [destruct (f_ext_nt _ _ _ _ _ _ H)|discriminate]. }
    destruct (Z.eqb_spec (z' + 1) (cf_cycl cfg)) as [Ez|Ez]; [discriminate|].
    destruct (_ && _ && _); [discriminate|].
    repeat split; assumption.
  Qed.

  Lemma predict_nt x dxmax j an : predict solve argsortF g dg cfg x dxmax j an <> Timeout.
  Proof.
    unfold predict. intros H.
    apply bind_timeout in H. destruct H as [H|(xj & Hxj & H)]; [destruct (py_get_nt _ _ H)|].
    apply bind_timeout in H. destruct H as [H|(dj & Hdj & H)]; [destruct (py_get_nt _ _ H)|].
    cbv zeta in H.
    apply bind_timeout in H. destruct H as [H|([an1 o] & Hnw & H)]; [destruct (newton_nt _ _ _ _ _ _ _ _ H)|].
    apply bind_timeout in H. destruct H as [H|(Dx & HDx & H)]; [destruct (bcast2_nt _ _ _ H)|].
    apply bind_timeout in H. destruct H as [H|([i1 v1] & Hbig & H)]; [destruct (biggest_nt _ _ H)|].
    apply bind_timeout in H. destruct H as [H|(j' & Hj & H)]; [destruct (signed_index_nt _ _ H)|discriminate].
  Qed.

  (** Reduction of pathfollow's termination to that of the recycle loop entered
      with z = 0. *)
  Variable dxmax0 : list F.
  Variable I : Z -> list F -> Prop.
  Hypothesis HI : keeps_I solve argsortF g dg cfg dxmax0 I.
  Variable fuel : nat.
  Hypothesis Hrec : forall x0 pre s, rc_z s = 0%Z -> I (rc_j s) (rc_dxmax s) ->
    recycle solve argsortF g dg cfg x0 dxmax0 pre fuel s <> Timeout.

  Lemma increment_nt s : I (ps_j s) (ps_dxmax s) ->
    increment solve argsortF g dg cfg dxmax0 fuel s <> Timeout.
  Proof.
    intros Hi H. unfold increment in H. cbv zeta in H.
    destruct (ps_jpre s && negb (cf_jfixed cfg)) eqn:Epre.
    - apply andb_prop in Epre. destruct Epre as [_ Ejf]. apply negb_true_iff in Ejf.
      apply bind_timeout in H. destruct H as [H|(p & _ & H)]; [exact (predict_nt _ _ _ _ H)|].
      destruct (pr_success p); [discriminate|].
      apply bind_timeout in H. destruct H as [H|([[r x] st] & _ & H)]; [|discriminate].
      eapply Hrec; [| |exact H]; [reflexivity|]. cbn. eapply (proj2 HI Ejf); exact Hi.
    - apply bind_timeout in H. destruct H as [H|([[r x] st] & _ & H)]; [|discriminate].
      eapply Hrec; [| |exact H]; [reflexivity|]. exact Hi.
  Qed.

  Lemma increments_nt : forall k s, I (ps_j s) (ps_dxmax s) ->
    increments solve argsortF g dg cfg dxmax0 fuel k s <> Timeout.
  Proof.
    induction k as [|k IH]; intros s Hi H; cbn [increments] in H; [discriminate|].
    apply bind_timeout in H. destruct H as [H|([s1 stop] & H1 & H)].
    { exact (increment_nt _ Hi H). }
    destruct stop; [discriminate|].
    apply bind_timeout in H. destruct H as [H|(lim & _ & H)].
    { unfold beyond_limit in H. destruct (cf_xlimit cfg) as [[k0 l]|]; [|discriminate].
      apply bind_timeout in H. destruct H as [H|(xk & _ & H)]; [exact (py_get_nt _ _ H)|discriminate]. }
    destruct lim; [discriminate|]. eapply IH; [|exact H].
    eapply (increment_ok solve argsortF g dg cfg dxmax0 I (fun _ _ => True) true) in H1; [|exact HI|unfold quiet; auto 10|exact Hi|auto].
    apply H1.
  Qed.

  Lemma pathfollow_nt Ured an d j jpre :
    dxmax0 = expand_dxmax (length (Ured ++ [f0])) d ->
    I (first_j cfg (length (Ured ++ [f0])) j) dxmax0 ->
    pathfollow solve argsortF g dg Ured an d j jpre cfg fuel <> Timeout.
  Proof.
    intros Hd Hi. unfold pathfollow. cbv zeta. rewrite <- Hd. unfold first_j in Hi.
    destruct (cf_jfixed cfg) eqn:Ej; cbn [negb].
    - destruct j as [j|].
      + apply increments_nt. exact Hi.
      + destruct (_ <=? 0)%Z; discriminate.
    - apply increments_nt. exact Hi.
  Qed.
End Nt.

(** ** Termination without step control *)
Lemma recycle_plain {F} `{NF : Num F} solve argsortF g dg (cfg : pfcfg F) x0 dxmax0 pre :
  no_timeout g dg -> cf_stepcontrol cfg = false ->
  forall fuel s, (0 <= rc_z s < cf_cycl cfg)%Z -> (cf_cycl cfg - rc_z s <= Z.of_nat fuel)%Z ->
  recycle solve argsortF g dg cfg x0 dxmax0 pre fuel s <> Timeout.
Proof.
  intros NT Hsc. induction fuel as [|fuel IH]; intros s Hz Hf H; [lia|].
  apply recycle_timeout in H; [|exact NT].
  destruct H as (xmax & ts & t & j & valid & dxmax' & z' & b' & changed & Hp & H).
  destruct Hp as (xs & Dx & q & i1 & v1 & _ & _ & _ & _ & _ & _ & _ & _ & _ & Hc).
  rewrite Hsc in Hc. destruct Hc as (-> & -> & -> & ->). cbv zeta in H.
  destruct H as (_ & Hz1 & H). eapply IH; [| |exact H]; cbn; lia.
Qed.

Lemma plain_terminates {F} `{NF : Num F} solve argsortF g dg (cfg : pfcfg F) Ured an d j jpre fuel :
  no_timeout g dg -> cf_stepcontrol cfg = false -> (1 <= cf_cycl cfg)%Z ->
  (Z.to_nat (cf_cycl cfg) <= fuel)%nat ->
  pathfollow solve argsortF g dg Ured an d j jpre cfg fuel <> Timeout.
Proof.
  intros NT Hsc Hc Hf.
  eapply (pathfollow_nt solve argsortF g dg cfg NT (expand_dxmax (length (Ured ++ [f0])) d) (fun _ _ => True));
    [apply keeps_True| |reflexivity|exact Logic.I].
  intros x0 pre s Hz _. apply recycle_plain; try assumption; rewrite Hz; lia.
Qed.

(** ** Bounds of the step limits *)
Local Open Scope R_scope.

Lemma multiple_one d0 : multiple d0 1 d0.
Proof. unfold multiple. induction d0 as [|x d0 IH]; cbn; [reflexivity|]. rewrite <- IH, Rmult_1_r. reflexivity. Qed.

Lemma multiple_hd d0 c d a b : multiple d0 c d -> py_get d 0 = Ok a -> py_get d0 0 = Ok b -> a = b * c.
Proof.
  intros -> Ha Hb. destruct d0 as [|x d0]; [discriminate|].
  unfold py_get, py_pos in *. cbn in Ha, Hb. congruence.
Qed.

Lemma control_step cfg d0 j j0 z ok b n nfev c d d' z' b' changed :
  control_params cfg -> (forall v, py_get d0 0 = Ok v -> 0 < v) ->
  (1 <= n <= nfev)%Z -> 0 <= c -> multiple d0 c d ->
  dxmax_control cfg d d0 j j0 z ok b n nfev = Ok (d', z', b', changed) ->
  exists c', multiple d0 c' d' /\
    ((c' = c /\ z' = z) \/
     (c' = c / cf_reduce cfg /\ cf_minfac cfg < c /\ b' = 0%Z /\ ok = false /\ (z' = z \/ z' = 0%Z /\ (z + 1)%Z = cf_cycl cfg)) \/
     (c <= c' <= c * (1 + cf_increase cfg) /\ c < cf_maxfac cfg /\ (z <= 0)%Z /\ (3 < b)%Z /\ z' = z) \/
     (c' = cf_maxfac cfg /\ cf_maxfac cfg <= c /\ z' = z)).
Proof.
  intros (Hmi & Hma & Hre & Hin) Hd0 Hn Hc0 Hm H. unfold dxmax_control in H.
  apply bind_ok in H. destruct H as (a & Ha & H).
  apply bind_ok in H. destruct H as (a0 & Ha0 & H).
  pose proof (multiple_hd _ _ _ _ _ Hm Ha Ha0) as Eac. pose proof (Hd0 _ Ha0) as Hpos.
  destruct ok; cbn [negb] in H; numR.
  - destruct (Rltb a (a0 * cf_maxfac cfg)) eqn:E1.
    + apply Rltb_true in E1. assert (Hcm : c < cf_maxfac cfg) by (rewrite Eac in E1; nra).
      destruct (Z.eqb_spec j0 j) as [Ej|Ej].
      * destruct (Z.ltb_spec 0 z); [injection H as <- <- <- <-; exists c; intuition lia|].
        destruct (Z.leb_spec b 3); [injection H as <- <- <- <-; exists c; intuition lia|].
        injection H as <- <- <- <-.
        set (rr := IZR (nfev - n) / IZR nfev).
        assert (0 <= rr <= 1).
        { assert (0 < IZR nfev) by (apply IZR_lt; lia). assert (0 <= IZR (nfev - n)) by (apply IZR_le; lia).
          assert (IZR (nfev - n) <= IZR nfev) by (apply IZR_le; lia). unfold rr. split.
          - apply Rmult_le_pos; [lra|]. left. now apply Rinv_0_lt_compat.
          - apply (Rmult_le_reg_r (IZR nfev)); [lra|]. unfold Rdiv. rewrite Rmult_assoc, Rinv_l; lra. }
        exists (c * (1 + rr * cf_increase cfg)). split.
        { rewrite Hm. unfold multiple. rewrite map_map. apply map_ext. intros x. ring. }
        right. right. left.
        assert (0 <= c * rr * cf_increase cfg).
        { apply Rmult_le_pos; [|lra]. apply Rmult_le_pos; lra. }
        assert (c * rr * cf_increase cfg <= c * cf_increase cfg).
        { apply Rmult_le_compat_r; [lra|]. rewrite <- (Rmult_1_r c) at 2. apply Rmult_le_compat_l; lra. }
        split; [split; nra|]. repeat split; try lia; lra.
      * injection H as <- <- <- <-. exists c. intuition lia.
    + apply Rltb_false in E1. assert (Hcm : cf_maxfac cfg <= c) by (rewrite Eac in E1; nra).
      destruct (Z.eqb_spec j j0).
      * injection H as <- <- <- <-. exists (cf_maxfac cfg). split; [reflexivity|]. intuition.
      * injection H as <- <- <- <-. exists c. intuition lia.
  - destruct (Rltb (a0 * cf_minfac cfg) a) eqn:E1.
    + apply Rltb_true in E1. assert (Hcm : cf_minfac cfg < c) by (rewrite Eac in E1; nra).
      assert (Hz' : forall w, w = (if (z + 1 =? cf_cycl cfg)%Z then 0%Z else z) -> w = z \/ w = 0%Z /\ (z + 1)%Z = cf_cycl cfg).
      { intros w ->. destruct (Z.eqb_spec (z + 1) (cf_cycl cfg)); auto. }
      destruct ((j0 =? j)%Z || (z + 1 =? cf_cycl cfg)%Z) eqn:E2.
      * destruct (Reqb (cf_reduce cfg) 0); [discriminate|]. injection H as <- <- <- <-.
        exists (c / cf_reduce cfg). split.
        { rewrite Hm. unfold multiple. rewrite map_map. apply map_ext. intros x. unfold Rdiv. ring. }
        right. left. repeat split; auto.
      * injection H as <- <- <- <-. apply orb_false_iff in E2. destruct E2 as [E2 E3]. rewrite E3 in *.
        exists c. split; [exact Hm|]. left; auto.
    + injection H as <- <- <- <-. exists c. split; [exact Hm|]. left; auto.
Qed.

Lemma bounds_keep solve argsortF g dg (cfg : pfcfg R) d0 :
  control_params cfg -> (forall v, py_get d0 0 = Ok v -> 0 < v) ->
  keeps_I solve argsortF g dg cfg d0 (bounds_I cfg d0).
Proof.
  intros Hp Hd0. split; [|intros _ j j' d H; exact H].
  intros x0 pre s xmax ts t j valid dxmax' z' b' changed (c & Hb & Hm) Hpass.
  destruct Hpass as (xs & Dx & q & i1 & v1 & Hco & _ & _ & _ & _ & _ & _ & _ & _ & Hc).
  destruct (cf_stepcontrol cfg); [|destruct Hc as (-> & _); split; exists c; auto].
  pose proof Hp as (Hmi & Hma & Hre & Hin).
  assert (Hlo : 0 <= cf_minfac cfg / cf_reduce cfg).
  { apply Rmult_le_pos; [lra|]. left. apply Rinv_0_lt_compat. lra. }
  assert (Hdiv : forall y, 0 <= y -> y / cf_reduce cfg <= y).
  { intros y Hy. apply (Rmult_le_reg_r (cf_reduce cfg)); [lra|].
    unfold Rdiv. rewrite Rmult_assoc, Rinv_l by lra. nra. }
  assert (Hmono : forall y w, y <= w -> y / cf_reduce cfg <= w / cf_reduce cfg).
  { intros y w Hy. apply Rmult_le_compat_r; [|exact Hy]. left. apply Rinv_0_lt_compat. lra. }
  destruct Hco as (? & ? & _ & _ & _ & _ & _ & Hlen).
  eapply control_step in Hc; [|exact Hp|exact Hd0|rewrite app_length in *; cbn [length] in *; lia| |exact Hm]; [|lra].
  destruct Hc as (c' & Hm' & Hc).
  assert (Hgoal : cf_minfac cfg / cf_reduce cfg <= c' <= cf_maxfac cfg * (1 + cf_increase cfg)).
  { destruct Hc as [(-> & _)|[(-> & Hlt & _)|[(Hr & Hlt & _)|(-> & Hle & _)]]].
    - exact Hb.
    - split; [apply Hmono; lra|]. apply Rle_trans with c; [apply Hdiv; lra|lra].
    - split; [lra|]. apply Rle_trans with (c * (1 + cf_increase cfg)); [lra|]. apply Rmult_le_compat_r; lra.
    - split; [|nra]. pose proof (Hdiv (cf_minfac cfg)). lra. }
  split; exists c'; auto.
Qed.

(** ** Termination with step control *)
Lemma recycle_control solve argsortF g dg (cfg : pfcfg R) x0 d0 pre :
  no_timeout g dg -> cf_stepcontrol cfg = true ->
  control_params cfg -> 1 < cf_reduce cfg -> 0 < cf_minfac cfg -> (forall v, py_get d0 0 = Ok v -> 0 < v) ->
  forall fuel N s c, (0 < rc_z s < cf_cycl cfg)%Z -> multiple d0 c (rc_dxmax s) -> 0 <= c ->
  c <= cf_minfac cfg * cf_reduce cfg ^ N ->
  (Z.of_nat N * cf_cycl cfg + (cf_cycl cfg - rc_z s) <= Z.of_nat fuel)%Z ->
  recycle solve argsortF g dg cfg x0 d0 pre fuel s <> Timeout.
Proof.
  intros NT Hsc Hp Hre Hmi Hd0. induction fuel as [|fuel IH]; intros N s c Hz Hm Hc0 HN Hf H; [nia|].
  apply recycle_timeout in H; [|exact NT].
  destruct H as (xmax & ts & t & j & valid & dxmax' & z' & b' & changed & Hps & H).
  destruct Hps as (xs & Dx & q & i1 & v1 & Hco & _ & _ & _ & _ & _ & _ & _ & _ & Hc).
  rewrite Hsc in Hc. destruct Hco as (? & ? & _ & _ & _ & _ & _ & Hlen). cbv zeta in H.
  destruct H as (_ & Hz1 & H).
  eapply control_step in Hc; [|exact Hp|exact Hd0|rewrite app_length in *; cbn [length] in *; lia|exact Hc0|exact Hm].
  destruct Hc as (c' & Hm' & Hc).
  destruct Hc as [(-> & Hzz)|[(Ec & Hlt & _ & _ & Hzz)|[(Hr & Hlt & Hz0 & _)|(-> & Hle & ->)]]]; [| |lia|].
  - subst z'. eapply (IH N); [| | | | |exact H]; cbn; eauto; lia.
  - destruct N as [|N]; [cbn in HN; lra|].
    assert (HN' : c' <= cf_minfac cfg * cf_reduce cfg ^ N).
    { rewrite Ec. apply (Rmult_le_reg_r (cf_reduce cfg)); [lra|]. unfold Rdiv. rewrite Rmult_assoc, Rinv_l by lra.
      cbn [pow] in HN. lra. }
    assert (0 <= c').
    { rewrite Ec. apply Rmult_le_pos; [lra|]. left. apply Rinv_0_lt_compat. lra. }
    eapply (IH N); [| | | | |exact H]; cbn [rc_z rc_dxmax]; eauto; nia.
  - pose proof Hp as (_ & Hma & _).
    eapply (IH N); [| | | | |exact H]; cbn [rc_z rc_dxmax]; eauto; try lra; lia.
Qed.

Lemma control_terminates solve argsortF g dg (cfg : pfcfg R) Ured an d j jpre fuel N :
  no_timeout g dg -> cf_stepcontrol cfg = true -> (1 <= cf_cycl cfg)%Z ->
  control_params cfg -> 1 < cf_reduce cfg -> 0 < cf_minfac cfg ->
  (forall v, py_get (expand_dxmax (length (Ured ++ [f0])) d) 0 = Ok v -> 0 < v) ->
  cf_maxfac cfg * (1 + cf_increase cfg) <= cf_minfac cfg * cf_reduce cfg ^ N ->
  (Z.to_nat (cf_cycl cfg) * (N + 1) <= fuel)%nat ->
  pathfollow solve argsortF g dg Ured an d j jpre cfg fuel <> Timeout.
Proof.
  intros NT Hsc Hcy Hp Hre Hmi Hd0 HN Hf.
  set (d0 := expand_dxmax (length (Ured ++ [f0])) d) in *.
  pose proof (bounds_keep solve argsortF g dg cfg d0 Hp Hd0) as HI.
  pose proof Hp as (Hmi' & Hma & _ & Hin).
  assert (Hlo : 0 <= cf_minfac cfg / cf_reduce cfg).
  { apply Rmult_le_pos; [lra|]. left. apply Rinv_0_lt_compat. lra. }
  eapply (pathfollow_nt solve argsortF g dg cfg NT d0 (bounds_I cfg d0) HI); [|reflexivity|].
  - intros x0 pre s Hz Hi. destruct fuel as [|fuel]; [nia|]. intros H.
    apply recycle_timeout in H; [|exact NT].
    destruct H as (xmax & ts & t & j' & valid & dxmax' & z' & b' & changed & Hps & H).
    pose proof (proj1 HI _ _ _ _ _ _ _ _ _ _ _ _ Hi Hps) as [(c' & Hb' & Hm') _].
    destruct Hps as (xs & Dx & q & i1 & v1 & Hco & _ & _ & _ & _ & _ & _ & _ & _ & Hc).
    rewrite Hsc in Hc. destruct Hco as (? & ? & _ & _ & _ & _ & _ & Hlen). cbv zeta in H.
    destruct H as (_ & Hz1 & H). destruct Hi as (c & Hb & Hm).
    eapply control_step in Hc; [|exact Hp|exact Hd0|rewrite app_length in *; cbn [length] in *; lia| |exact Hm]; [|lra].
    assert (z' = 0%Z) as -> by (destruct Hc as (c1 & _ & [(_ & E)|[(_ & _ & _ & _ & E)|[(_ & _ & _ & _ & E)|(_ & _ & E)]]]); lia).
    eapply (recycle_control solve argsortF g dg cfg x0 d0 pre NT Hsc Hp Hre Hmi Hd0 fuel N _ c'); [| | | | |exact H];
      cbn [rc_z rc_dxmax]; try assumption; try lra; try lia.
  - exists 1. split; [|apply multiple_one]. split.
    + apply (Rmult_le_reg_r (cf_reduce cfg)); [lra|]. unfold Rdiv. rewrite Rmult_assoc, Rinv_l; lra.
    + nra.
Qed.

(** Such an N exists. *)
Lemma reductions_exist a b r : 0 < a -> 1 < r -> exists N, b <= a * r ^ N.
Proof.
  intros Ha Hr. destruct (Pow_x_infinity r (ltac:(rewrite Rabs_pos_eq; lra)) (b / a)) as [N HN].
  exists N. specialize (HN N (le_n N)). rewrite Rabs_pos_eq in HN by (apply pow_le; lra).
  apply Rge_le in HN. apply (Rmult_le_compat_l a) in HN; [|lra].
  replace (a * (b / a)) with b in HN by (field; lra). exact HN.
Qed.

(** ** The control component *)
Lemma trace_last {F} `{NF : Num F} {S} solve (fn : list F -> S -> res (S * list F)) dfn :
  forall ts x s t, trace solve fn dfn x s (ts ++ [t]) ->
  exists s2, fn (it_x t) s2 = Ok (it_s t, it_f t).
Proof.
  induction ts as [|u ts IH]; intros x s t H; inversion H as [|? ? ? ? Hi Hr]; subst.
  - destruct Hi as (s1 & Km & s2 & fv & _ & _ & _ & _ & E). eauto.
  - eapply IH; exact Hr.
Qed.

Lemma fdot_nonneg (l : list R) : 0 <= fdot l l.
Proof. induction l as [|x l IH]; cbn [fdot]; numR; [lra|]. nra. Qed.

Lemma fdot_app (a b : list R) : fdot (a ++ b) (a ++ b) = fdot a a + fdot b b.
Proof. induction a as [|x a IH]; cbn [app fdot]; numR; [lra|]. rewrite IH. lra. Qed.

Lemma fnorm_app_le (a b : list R) : fnorm a <= fnorm (a ++ b) /\ fnorm b <= fnorm (a ++ b).
Proof.
  unfold fnorm. rewrite fdot_app. pose proof (fdot_nonneg a). pose proof (fdot_nonneg b).
  split; apply sqrt_le_1; numR; lra.
Qed.

Lemma fnorm_one (x : R) : fnorm [x] = Rabs x.
Proof. unfold fnorm, fdot. numR. rewrite Rplus_0_r. apply (sqrt_Rsqr_abs x). Qed.

Lemma fnorm_opp (l : list R) : fnorm (map fopp l) = fnorm l.
Proof. unfold fnorm. f_equal. induction l as [|x l IH]; cbn [map fdot]; numR; [reflexivity|]. rewrite IH. ring. Qed.

Lemma corrector_reach solve g dg (cfg : pfcfg R) x0 j dxmax xmax xs nfev an ts t :
  corrector solve g dg cfg x0 j dxmax xmax xs nfev an ts t ->
  converged (cf_ftol cfg) (cf_xtol cfg) t = true ->
  exists gr an1 an2 xj, g (it_x t) x0 false (set_j j an1) = Ok (an2, gr) /\ it_s t = an2 /\
    py_get (it_x t) (Z.abs j - 1) = Ok xj /\
    fnorm gr < cf_ftol cfg /\ Rabs (xj - xmax) < cf_ftol cfg.
Proof.
  intros (x0j & dj & _ & _ & _ & Ht & _) Hc. apply trace_last in Ht. destruct Ht as (s2 & E).
  unfold f_ext in E. apply bind_ok in E. destruct E as ([an1 gr] & Hg & E).
  apply bind_ok in E. destruct E as (xj & Hxj & E). injection E as <- E.
  unfold converged in Hc. apply andb_prop in Hc. destruct Hc as [Hc _]. numR. apply Rltb_true in Hc.
  change (fnorm (it_f t) < cf_ftol cfg) in Hc. rewrite <- E in Hc. destruct (fnorm_app_le (map fopp gr) [xj - xmax]) as [H1 H2].
  rewrite fnorm_opp in H1. rewrite fnorm_one in H2. numR.
  exists gr, s2, an1, xj. repeat split; try assumption; lra.
Qed.
