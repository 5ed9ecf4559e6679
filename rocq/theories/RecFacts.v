(** * What the recorded increments of a step contain *)
From Coq Require Import List ZArith Bool Arith Lia.
Import ListNotations.
From Verif Require Import Num Vec Handlers Material Analysis Truss Equil Solver Run ListFacts SpecMech EquilFacts
  SpecState FrameFacts EvalFacts SpecSolver SolverFacts PathFacts StepFacts SpecRun RunFacts.

Lemma last_cons_d {A} (l : list A) a d : last l a = last (a :: l) d.
Proof.
  destruct l as [|r l]; [reflexivity|]. cbn [last]. revert r.
  induction l as [|q l IH]; intros r; [reflexivity|]. cbn [last] in *. apply IH.
Qed.

Lemma trace_last_inv {F} `{NF : Num F} {S} solve (fn : list F -> S -> res (S * list F)) dfn (P : S -> Prop) :
  (forall x s s' v, P s -> fn x s = Ok (s', v) -> P s') ->
  (forall x s s' K, P s -> dfn x s = Ok (s', K) -> P s') ->
  forall ts x s t, P s -> trace solve fn dfn x s (ts ++ [t]) ->
  exists s2, P s2 /\ fn (it_x t) s2 = Ok (it_s t, it_f t).
Proof.
  intros Hf Hd. induction ts as [|u ts IH]; intros x s t Hp H; inversion H as [|? ? ? ? Hi Hr]; subst;
    destruct Hi as (s1 & Km & s2 & fv & H1 & H2 & _ & _ & E).
  - eauto.
  - eapply IH; [|exact Hr]. eauto.
Qed.

Section Rec.
  Context {F : Type} `{NF : Num F}.
  Variable argsortF : list F -> list nat.
  Variable solve : list (list F) -> list F -> list F.
  Implicit Types (c : ctx F) (a : analysis F).

  (** Allowed changes without the write flag. *)
  Definition silent c a a' : Prop :=
    same_setup a a' /\ a_state a' = a_state a /\
    forall ms, truss_ok c ms -> sizes_ok c ms a -> sizes_ok c ms a'.

  Lemma silent_quiet c : quiet (equilibrium c) (stiffness c) (fun _ _ => True) (silent c).
  Proof.
    unfold quiet. repeat match goal with |- _ /\ _ => split end.
    - intros a. split; [apply same_refl|]. auto.
    - intros a b d (H1 & H2 & H3) (G1 & G2 & G3). split; [eapply same_trans; eassumption|].
      split; [congruence|auto].
    - intros V V0 a a' v H. pose proof (equilibrium_same _ _ _ _ _ _ _ H) as (S1 & S2 & _).
      split; [exact S1|]. split; [auto|]. intros ms Hok Hsz. eapply gequilibrium_sizes; eassumption.
    - intros U a a' K H. pose proof (stiffness_same _ _ _ _ _ H) as (S1 & S2).
      split; [exact S1|]. split; [auto|]. intros ms Hok Hsz. eapply gstiffness_sizes; eassumption.
    - intros j a. split; [unfold same_setup; cbn; repeat split|]. split; [reflexivity|auto].
    - intros j d a _. split; [unfold same_setup; cbn; repeat split|]. split; [reflexivity|auto].
    - intros K a. split; [unfold same_setup; cbn; repeat split|]. split; [reflexivity|auto].
  Qed.

  Definition kacc c cfg := acc solve (equilibrium c) (stiffness c) cfg (fun _ _ => True) (silent c).
  Definition kskp c cfg jp := skp solve (equilibrium c) (stiffness c) cfg (fun _ _ => True) (silent c) jp.
  Definition kfld c cfg := fld solve (equilibrium c) (stiffness c) cfg (fun _ _ => True) (silent c).

  Lemma along_snoc (P : list F -> analysis F -> list F -> analysis F -> Prop) recs : forall x0 a0 x a,
    along P x0 a0 (recs ++ [(x, a)]) <->
    along P x0 a0 recs /\ P (fst (last recs (x0, a0))) (snd (last recs (x0, a0))) x a.
  Proof.
    induction recs as [|[y b] recs IH]; intros x0 a0 x a; cbn [app along].
    - cbn. tauto.
    - rewrite IH. replace (last ((y, b) :: recs) (x0, a0)) with (last recs (y, b)); [tauto|apply last_cons_d].
  Qed.

  Lemma along_impl (P Q : list F -> analysis F -> list F -> analysis F -> Prop) (J : list F -> analysis F -> Prop)
      recs : forall x0 a0, J x0 a0 -> along P x0 a0 recs ->
    (forall x0 a0 x a, J x0 a0 -> P x0 a0 x a -> J x a /\ Q x0 a0 x a) ->
    along Q x0 a0 recs /\ (forall x a, In (x, a) recs -> J x a) /\
    J (fst (last recs (x0, a0))) (snd (last recs (x0, a0))).
  Proof.
    induction recs as [|[x a] recs IH]; intros x0 a0 Hj Ha H; cbn [along] in *.
    - split; [exact Logic.I|]. split; [intros ? ? []|exact Hj].
    - destruct Ha as [Hp Ha]. destruct (H _ _ _ _ Hj Hp) as [Hj1 Hq].
      destruct (IH x a Hj1 Ha H) as (I1 & I2 & I3). split; [auto|]. split.
      + intros y b [E|Hin]; [injection E as <- <-; exact Hj1|auto].
      + replace (last ((x, a) :: recs) (x0, a0)) with (last recs (x, a)); [exact I3|apply last_cons_d].
  Qed.

  (** The kinds of records of a step. *)
  Lemma step_kinds c st fuel k lg :
    step_ran argsortF solve c st fuel k lg ->
    exists incs xl recs, let cfg := pf_config st xl incs in
      let x0 := a_Ured (lg_start lg) ++ [f0] in
      good_part lg recs /\
      along (fun x0 a0 x a => kacc c cfg x0 a0 x a \/ kskp c cfg (s_jpre st) x0 a0 x a) x0 (lg_start lg) recs /\
      (lg_recs lg = recs \/ exists x a, lg_recs lg = recs ++ [(x, a)] /\
         kfld c cfg (fst (last recs (x0, lg_start lg))) (snd (last recs (x0, lg_start lg))) x a).
  Proof.
    intros (incs & xl & pf & _ & _ & H & Hres & Hout). exists incs, xl.
    eapply (pathfollow_ok solve argsortF (equilibrium c) (stiffness c) (pf_config st xl incs) _
              (fun _ _ => True) (silent c) (s_jpre st)) in H;
      [|apply keeps_True|apply silent_quiet|reflexivity|exact Logic.I|auto].
    cbv zeta in *. destruct H as (recs & Hr & _ & _ & _ & H).
    assert (Hgood : forall x0 a0 rs,
      good solve (equilibrium c) (stiffness c) (pf_config st xl incs) (fun _ _ => True) (silent c) (s_jpre st) x0 a0 rs ->
      along (fun x0 a0 x a => kacc c (pf_config st xl incs) x0 a0 x a \/
                              kskp c (pf_config st xl incs) (s_jpre st) x0 a0 x a) x0 a0 rs).
    { intros x0 a0 rs G. induction G; cbn [along]; auto. }
    assert (Er : lg_recs lg = recs) by congruence.
    destruct H as [(Hg & Hn & _)|(rs & x' & a & ms & e & E & Hg & Hf & Ho & He & _)].
    - exists recs. split; [left; split; [exact Er|rewrite <- Hout; exact Hn]|]. auto.
    - exists rs. split.
      + right. exists (x', a), ms, e. repeat split; congruence.
      + split; [auto|]. right. exists x', a. split; [congruence|exact Hf].
  Qed.

  Definition kany c cfg jp x0 a0 x a : Prop :=
    kacc c cfg x0 a0 x a \/ kskp c cfg jp x0 a0 x a \/ kfld c cfg x0 a0 x a.

  Lemma step_any c st fuel k lg :
    step_ran argsortF solve c st fuel k lg ->
    exists incs xl, along (kany c (pf_config st xl incs) (s_jpre st))
      (a_Ured (lg_start lg) ++ [f0]) (lg_start lg) (lg_recs lg).
  Proof.
    intros H. destruct (step_kinds _ _ _ _ _ H) as (incs & xl & recs & _ & Hal & Hl). cbv zeta in *.
    exists incs, xl.
    assert (G : forall x0 a0 rs, along (fun x0 a0 x a => kacc c (pf_config st xl incs) x0 a0 x a \/
                              kskp c (pf_config st xl incs) (s_jpre st) x0 a0 x a) x0 a0 rs ->
              along (kany c (pf_config st xl incs) (s_jpre st)) x0 a0 rs).
    { intros x0 a0 rs. revert x0 a0. induction rs as [|[x a] rs IH]; intros x0 a0; cbn [along]; auto.
      intros [Hp Hr]. split; [unfold kany; tauto|auto]. }
    destruct Hl as [->|(x & a & -> & Hf)]; [auto|]. apply along_snoc. split; [auto|]. right. right. exact Hf.
  Qed.

  (** Consequences for one record. *)
  Lemma set_same_r a a' x : same_setup a a' -> same_setup a (recorded x a').
  Proof. intros H. exact H. Qed.

  Lemma commit_same c x0 j xmax w x a a' v :
    f_ext (equilibrium c) x0 j xmax w x a = Ok (a', v) ->
    exists gr xj, equilibrium c x x0 w (set_j j a) = Ok (a', gr) /\ py_get x (Z.abs j - 1) = Ok xj /\
      v = map fopp gr ++ [fsub xj xmax].
  Proof.
    unfold f_ext. intros H. apply bind_ok in H. destruct H as ([a1 gr] & Hg & H).
    apply bind_ok in H. destruct H as (xj & Hx & H). injection H as <- <-. eauto.
  Qed.

  Lemma kacc_same c cfg x0 a0 x a : kacc c cfg x0 a0 x a -> same_setup a0 a.
  Proof.
    intros (j & dxmax & xmax & xs & nfev & an & ts & t & an2 & v & _ & _ & _ & (S & _) & _ & _ & _ & _ & _ & Hf & ->).
    apply set_same_r. apply commit_same in Hf. destruct Hf as (gr & xj & Hg & _).
    apply equilibrium_same in Hg. destruct Hg as (S2 & _). eapply same_trans; [exact S|exact S2].
  Qed.

  Lemma kskp_same c cfg jp x0 a0 x a : kskp c cfg jp x0 a0 x a -> same_setup a0 a /\ a_state a = a_state a0 /\ x = x0.
  Proof. intros (_ & _ & j & d & xm & an & t & _ & _ & (S & E & _) & _ & _ & -> & ->). auto. Qed.

  Lemma kfld_same c cfg x0 a0 x a : kfld c cfg x0 a0 x a -> same_setup a0 a /\ a_state a = a_state a0.
  Proof.
    intros (j & dxmax & xmax & xs & nfev & an & ts & t & _ & _ & _ & (S & E & _) & _ & _ & _ & -> & _). auto.
  Qed.

  Lemma kany_same c cfg jp x0 a0 x a : kany c cfg jp x0 a0 x a -> same_setup a0 a.
  Proof.
    intros [H|[H|H]]; [eapply kacc_same; eassumption|apply kskp_same in H; apply H|apply kfld_same in H; apply H].
  Qed.

  Lemma sizes_recorded c ms x a : sizes_ok c ms a -> sizes_ok c ms (recorded x a).
  Proof. auto. Qed.

  Lemma kany_sizes c cfg jp ms x0 a0 x a : truss_ok c ms -> sizes_ok c ms a0 ->
    kany c cfg jp x0 a0 x a -> sizes_ok c ms a.
  Proof.
    intros Hok Hsz [H|[H|H]].
    - destruct H as (j & dxmax & xmax & xs & nfev & an & ts & t & an2 & v & _ & _ & _ & (_ & _ & S) & _ & _ & _ & _ & _ & Hf & ->).
      apply sizes_recorded. apply commit_same in Hf. destruct Hf as (gr & xj & Hg & _).
      eapply gequilibrium_sizes; [exact Hok| |exact Hg]. exact (S ms Hok Hsz).
    - destruct H as (_ & _ & j & d & xm & an & t & _ & _ & (_ & _ & S) & _ & _ & -> & ->).
      apply sizes_recorded. exact (S ms Hok Hsz).
    - destruct H as (j & dxmax & xmax & xs & nfev & an & ts & t & _ & _ & _ & (_ & _ & S) & _ & _ & _ & -> & _).
      apply sizes_recorded. exact (S ms Hok Hsz).
  Qed.

  (** Shape of the recorded vectors. *)
  Lemma kany_recorded c cfg jp x0 a0 x a : kany c cfg jp x0 a0 x a ->
    a_Vred a = x /\ a_Ured a = removelast x /\ a_lpf a = last x f0.
  Proof.
    intros [H|[H|H]].
    - destruct H as (j & dxmax & xmax & xs & nfev & an & ts & t & an2 & v & H). 
      repeat match type of H with _ /\ _ => destruct H as [_ H] end. subst a. auto.
    - destruct H as (_ & _ & j & d & xm & an & t & _ & _ & _ & _ & _ & -> & ->). auto.
    - destruct H as (j & dxmax & xmax & xs & nfev & an & ts & t & _ & _ & _ & _ & _ & _ & _ & -> & _). auto.
  Qed.

  Lemma kany_length c cfg jp x0 a0 x a : kany c cfg jp x0 a0 x a -> 2 <= length x0 -> length x = length x0.
  Proof.
    intros [H|[H|H]] H2.
    - destruct H as (j & dxmax & xmax & xs & nfev & an & ts & t & an2 & v & _ & _ & _ & _ & _ & _ & _ & (_ & Hl) & _). auto.
    - apply kskp_same in H. destruct H as (_ & _ & ->). reflexivity.
    - destruct H as (j & dxmax & xmax & xs & nfev & an & ts & t & _ & _ & _ & _ & _ & _ & (_ & Hl) & _). auto.
  Qed.

  Lemma gather_scatter (a a' : list (v3 F)) dof vals :
    NoDup dof -> length vals = length dof -> scatter a dof vals = Ok a' -> gather (vflat a') dof = Ok vals.
  Proof.
    intros Hn Hl H. apply scatter_ok in H; auto. destruct H as (_ & _ & H). apply gather_map.
    apply nth_error_ext. intros m. rewrite !nth_error_map.
    destruct (nth_error dof m) as [k|] eqn:E; cbn [option_map].
    - rewrite (H _ _ E). destruct (nth_error vals m) eqn:Ev; [reflexivity|].
      apply nth_error_None in Ev. assert (m < length dof) by (apply nth_error_Some; congruence). lia.
    - apply nth_error_None in E. rewrite (proj2 (nth_error_None vals m)) by lia. reflexivity.
  Qed.

  Lemma firstn_removelast {A} (x : list A) n : length x = S n -> firstn n x = removelast x.
  Proof.
    intros H. destruct (exists_last (l := x)) as (l & y & ->); [intros ->; discriminate|].
    rewrite removelast_last, app_length in *. cbn in H. rewrite firstn_app.
    replace (n - length l) with 0 by lia. rewrite firstn_O, app_nil_r. apply firstn_all2. lia.
  Qed.

  Lemma eval_active c x x0 w a a' gr :
    NoDup (a_DOF1 a) -> c_ndof1 c = length (a_DOF1 a) -> length x = S (c_ndof1 c) ->
    equilibrium c x x0 w a = Ok (a', gr) ->
    gather (vflat (a_U a')) (a_DOF1 a) = Ok (removelast x).
  Proof.
    intros Hn Hl Hx H. apply equilibrium_same in H. destruct H as (_ & _ & H).
    unfold ext_disp in H. destruct (Nat.ltb_spec (c_ndof1 c) (length x)); [|lia].
    rewrite (firstn_removelast x _ Hx) in H. eapply gather_scatter; [exact Hn| |exact H].
    rewrite <- (firstn_removelast x _ Hx), firstn_length. lia.
  Qed.

  Lemma corr_eval c cfg x0 j dxmax xmax xs nfev an ts t a0 :
    silent c a0 an ->
    corrector solve (equilibrium c) (stiffness c) cfg x0 j dxmax xmax xs nfev an ts t ->
    exists a1 gr xj, silent c a0 (set_j j a1) /\ equilibrium c (it_x t) x0 false (set_j j a1) = Ok (it_s t, gr) /\
      py_get (it_x t) (Z.abs j - 1) = Ok xj /\ it_f t = map fopp gr ++ [fsub xj xmax].
  Proof.
    intros Hs (xj & dj & _ & _ & _ & Ht & _).
    pose proof (silent_quiet c) as Q.
    eapply (trace_last_inv solve _ _ (silent c a0)) in Ht; [| | |exact Hs].
    - destruct Ht as (a1 & Hs1 & E). apply commit_same in E. destruct E as (gr & v & E & Hv & Ef).
      exists a1, gr, v. split; [|auto]. eapply (proj1 (proj2 Q)); [exact Hs1|].
      apply (proj1 (proj2 (proj2 (proj2 (proj2 Q))))).
    - intros x s s' v Hp Hf. eapply (proj1 (proj2 Q)); [exact Hp|]. eapply f_ext_quiet; eassumption.
    - intros x s s' K Hp Hd. eapply (proj1 (proj2 Q)); [exact Hp|]. eapply dfdx_quiet; eassumption.
  Qed.

  (** Records of the Newton loop: the field's active part is the recorded vector. *)
  Lemma kany_active c cfg x0 a0 x a :
    NoDup (a_DOF1 a0) -> c_ndof1 c = length (a_DOF1 a0) -> length x0 = S (c_ndof1 c) -> 1 <= c_ndof1 c ->
    kacc c cfg x0 a0 x a \/ kfld c cfg x0 a0 x a ->
    gather (vflat (a_U a)) (a_DOF1 a) = Ok (a_Ured a).
  Proof.
    intros Hn Hl Hx0 H1 H.
    assert (Hlx : length x = length x0).
    { apply (kany_length c cfg true x0 a0 x a); [|lia]. destruct H; [left|right; right]; assumption. }
    assert (HD : same_setup a0 a).
    { apply (kany_same c cfg true x0 a0 x a). destruct H; [left|right; right]; assumption. }
    assert (Hu : a_Ured a = removelast x).
    { apply (kany_recorded c cfg true x0 a0 x a). destruct H; [left|right; right]; assumption. }
    destruct HD as (_ & _ & HD & _). rewrite Hu, HD.
    destruct H as [H|H].
    - destruct H as (j & dxmax & xmax & xs & nfev & an & ts & t & an2 & v & _ & _ & _ & (S & _) & _ & _ & _ & _ & _ & Hf & ->).
      cbn [recorded a_U set_lpf set_Ured set_Vred]. apply commit_same in Hf. destruct Hf as (gr & xj & Hg & _).
      destruct S as (_ & _ & S & _).
      change (a_DOF1 (it_s t)) with (a_DOF1 (set_j j (set_dVmax dxmax (it_s t)))) in S.
      rewrite <- S. eapply eval_active; [| | |exact Hg]; [rewrite S; exact Hn|rewrite S; exact Hl|lia].
    - destruct H as (j & dxmax & xmax & xs & nfev & an & ts & t & _ & _ & San & (S & _) & Hc & Hxt & _ & -> & _).
      cbn [recorded a_U set_lpf set_Ured set_Vred set_dVmax]. eapply corr_eval in Hc; [|exact San]. destruct Hc as (a1 & gr & xj & _ & Hg & _).
      pose proof (equilibrium_same _ _ _ _ _ _ _ Hg) as ((_ & _ & S1 & _) & _).
      destruct S as (_ & _ & S & _). rewrite Hxt in Hg.
      assert (S2 : a_DOF1 (set_j j a1) = a_DOF1 a0) by congruence.
      rewrite <- S2. eapply eval_active; [| | |exact Hg]; [rewrite S2; exact Hn|rewrite S2; exact Hl|lia].
  Qed.

  (** State variables along accepted records. *)
  Lemma kacc_state c cfg ms x0 a0 x a sv :
    truss_ok c ms -> sizes_ok c ms a0 -> (0 < c_nstatev c)%Z -> a_state a0 = Some sv ->
    kacc c cfg x0 a0 x a ->
    exists sv', a_state a = Some sv' /\ length sv' = length ms /\
      forall k m, nth_error ms k = Some m ->
        exists row row' lam stress de dsde,
          nth_error sv k = Some row /\ nth_error sv' k = Some row' /\
          nth_error (a_stretch a) k = Some lam /\ nth_error (a_stress a) k = Some stress /\
          umat (mb_law m) (fsub lam f1) de (mb_mat m) (Some row) = Ok (stress, dsde, Some row').
  Proof.
    intros Hok Hsz Hn Hs (j & dxmax & xmax & xs & nfev & an & ts & t & an2 & v & _ & _ & _ & (S & E & Z) & _ & _ & _ & _ & _ & Hf & ->).
    apply commit_same in Hf. destruct Hf as (gr & xj & Hg & _).
    eapply (state_written c ms) in Hg; [| | | |]; [exact Hg|exact Hok|exact (Z ms Hok Hsz)|exact Hn|].
    cbn. congruence.
  Qed.

  (** Residual of an accepted record: that of the converged iterate. *)
  Lemma kacc_residual c cfg ms x0 a0 x a :
    truss_ok c ms -> sizes_ok c ms a0 -> length x0 = S (c_ndof1 c) -> 1 <= c_ndof1 c ->
    kacc c cfg x0 a0 x a ->
    exists gr j dxj xj x0j s1,
      gather (a_g a) (a_DOF1 a) = Ok gr /\
      bcast2 fadd (map fopp (vflat (a_r a))) (concat (a_fconst a)) = Ok s1 /\
      bcast2 fadd s1 (map (fmul (a_lpf a)) (concat (a_forces a))) = Ok (a_g a) /\
      j = a_j a /\ py_get (a_dVmax a) (Z.abs j - 1) = Ok dxj /\
      py_get x (Z.abs j - 1) = Ok xj /\ py_get x0 (Z.abs j - 1) = Ok x0j /\
      let f := map fopp gr ++ [fsub xj (fadd x0j (fmul dxj (fofZ (Z.sgn j))))] in
      fltb (fnorm f) (cf_ftol cfg) = true.
  Proof.
    intros Hok Hsz Hx0 H1 H.
    pose proof (kany_length c cfg true x0 a0 x a (or_introl H) ltac:(lia)) as Hlx.
    destruct H as (j & dxmax & xmax & xs & nfev & an & ts & t & an2 & v & _ & _ & San & St & Hc & Hcv & Hxt & _ & _ & Hf & ->).
    apply commit_same in Hf. destruct Hf as (gr & xj & Hg & Hxj & _).
    pose proof Hc as Hc'. destruct Hc' as (x0j & dj & Hx0j & Hdj & Hxm & _).
    eapply corr_eval in Hc; [|exact San]. destruct Hc as (a1 & gr1 & xj1 & S1 & Hg1 & Hxj1 & Hft).
    rewrite Hxt in *.
    pose proof (equilibrium_same _ _ _ _ _ _ _ Hg1) as (Ss & E1 & _). specialize (E1 eq_refl).
    destruct S1 as (_ & _ & Z1). destruct St as (_ & _ & Zt).
    assert (Hdet : gr = gr1).
    { refine (proj1 (equil_det c ms x x0 false true _ _ _ _ _ _ Hok _ _ _ _ _ Hg1 Hg));
        [exact (Z1 ms Hok Hsz)|exact (Zt ms Hok Hsz)|exact Ss|exact E1|lia]. }
    subst gr1. assert (xj1 = xj) by congruence. subst xj1.
    pose proof (residual_recorded _ _ _ _ _ _ _ Hg ltac:(lia)) as ((s1 & R1 & R2) & R3).
    pose proof (equilibrium_parts _ _ _ _ _ _ _ Hg) as (U & U0 & a2 & _ & _ & Hl & _ & _ & Ea).
    pose proof (elem_loop_frame _ _ _ _ _ _ _ Hl) as (Fx & _).
    exists gr, j, dj, xj, x0j, s1.
    cbn [recorded a_g a_DOF1 a_r a_fconst a_forces a_lpf a_j a_dVmax set_lpf set_Ured set_Vred].
    assert (Ej : a_j an2 = j /\ a_dVmax an2 = dxmax).
    { rewrite Ea. cbn. unfold efix in Fx. cbn in Fx.
      repeat match type of Fx with _ /\ _ => let H := fresh "F" in destruct Fx as [H Fx] end. split; congruence. }
    destruct Ej as [-> ->].
    repeat match goal with |- _ /\ _ => split end; try assumption; try reflexivity.
    cbv zeta. unfold converged in Hcv. apply andb_prop in Hcv. destruct Hcv as [Hcv _].
    rewrite Hft, Hxm in Hcv. exact Hcv.
  Qed.
End Rec.
