(** * Evaluations of a truss, for every arithmetic *)
From Coq Require Import List ZArith Bool Arith Lia.
Import ListNotations.
From Verif Require Import Num Vec Handlers Material Analysis Truss Equil Solver ListFacts SpecMech EquilFacts
  SpecState FrameFacts.

Section Eval.
  Context {F : Type} `{NF : Num F}.
  Implicit Types (c : ctx F) (an : analysis F).

  Lemma gprepare_sizes c ms st V V0 an an1 u lam :
    sizes_ok c ms an -> equil_prepare c st V V0 an = Ok (an1, u, lam) -> sizes_ok c ms an1.
  Proof.
    intros (HU & HU0 & Hr & HK & HKr & Hst & Hss & Hf & HD & HD' & Hn & Hsv) H.
    unfold equil_prepare in H. mstep H. mstep H. injection H as <- <- <-.
    apply scatter_length in Ha, Ha0.
    unfold sizes_ok. destruct st; cbn in *; rewrite ?map_length in *; repeat split; auto; try congruence.
    intros row Hin. apply in_map_iff in Hin. destruct Hin as (row' & <- & Hin). rewrite map_length. auto.
  Qed.

  Lemma gprepare_frame c st V V0 an an1 u lam :
    equil_prepare c st V V0 an = Ok (an1, u, lam) ->
    a_state an1 = a_state an /\ a_DOF1 an1 = a_DOF1 an /\
    a_fconst an1 = a_fconst an /\ a_forces an1 = a_forces an /\
    u = ext_disp c V /\ lam = ext_lpf c V (a_lpf an) /\
    (st = StG -> a_r an1 = map (fun _ => vzero) (a_r an)).
  Proof.
    unfold equil_prepare. intros H. mstep H. mstep H. injection H as <- <- <-.
    destruct st; cbn; repeat split; discriminate.
  Qed.

  Lemma gequilibrium_inv c ms V V0 w an an' gr :
    truss_ok c ms -> sizes_ok c ms an -> equilibrium c V V0 w an = Ok (an', gr) ->
    exists an1 qs g,
      let lam := ext_lpf c V (a_lpf an) in
      equil_prepare c StG V V0 an = Ok (an1, ext_disp c V, lam) /\ sizes_ok c ms an1 /\
      quants c (a_U an') (a_U0 an') (state_row c an) 0 ms qs /\
      an' = set_g g (loop_an StG c (ext_disp c V) lam w (zipk 0 ms qs) an1) /\
      (exists s1, bcast2 fadd (map fopp (vflat (a_r an'))) (concat (a_fconst an)) = Ok s1 /\
         bcast2 fadd s1 (map (fmul lam) (concat (a_forces an))) = Ok g) /\
      gather g (a_DOF1 an) = Ok gr.
  Proof.
    intros Hok Hsz H. unfold equilibrium in H. mstep H. destruct a as [[an1 u] lam]. mstep H.
    pose proof (gprepare_sizes _ _ _ _ _ _ _ _ _ Hsz Ha) as Hsz1.
    destruct (elem_loop_inv _ _ _ _ _ _ _ _ Hok Hsz1 Ha0) as (qs & Hq & ->).
    pose proof (gprepare_frame _ _ _ _ _ _ _ _ Ha) as (P1 & P2 & P3 & P4 & -> & -> & _).
    pose proof (loop_frame StG c (ext_disp c V) (ext_lpf c V (a_lpf an)) w (zipk 0 ms qs) an1) as Hfr.
    cbn zeta in Hfr. destruct Hfr as (E1 & E2 & _ & _ & _ & E3 & _ & _ & _ & _ & _ & _ & E4 & E5).
    mstep H. mstep H. mstep H. injection H as <- <-.
    rewrite E4, P3 in *. rewrite E5, P4 in *. rewrite E3, P2 in *.
    exists an1, qs, a0. cbn zeta. split; [assumption|]. split; [exact Hsz1|]. split.
    { cbn. rewrite E1, E2. eapply quants_ext; [|exact Hq]. intros j _. unfold state_row. rewrite P1. reflexivity. }
    split; [reflexivity|]. split; [|assumption]. exists a. cbn. auto.
  Qed.

  Lemma gequilibrium_sizes c ms V V0 w an an' g :
    truss_ok c ms -> sizes_ok c ms an -> equilibrium c V V0 w an = Ok (an', g) -> sizes_ok c ms an'.
  Proof.
    intros Hok Hsz H.
    destruct (gequilibrium_inv _ _ _ _ _ _ _ _ Hok Hsz H) as (an1 & qs & g' & Hp & Hsz1 & Hq & E & _ & _).
    subst an'. unfold sizes_ok. cbn. apply (loop_sizes StG c ms _ _ w (zipk 0 ms qs) an1 Hok); auto.
    intros x Hx. eapply zipk_In; eauto.
  Qed.

  Lemma gstiffness_sizes c ms V an an' K :
    truss_ok c ms -> sizes_ok c ms an -> stiffness c V an = Ok (an', K) -> sizes_ok c ms an'.
  Proof.
    intros Hok Hsz H. unfold stiffness in H. mstep H. destruct a as [[an1 u] lam]. mstep H.
    pose proof (gprepare_sizes _ _ _ _ _ _ _ _ _ Hsz Ha) as Hsz1.
    destruct (elem_loop_inv _ _ _ _ _ _ _ _ Hok Hsz1 Ha0) as (qs & Hq & ->).
    mstep H. injection H as <- <-.
    unfold sizes_ok. cbn. apply (loop_sizes StK c ms _ _ false (zipk 0 ms qs) an1 Hok); auto.
    intros x Hx. eapply zipk_In; eauto.
  Qed.

  Lemma quants_fun c U U0 row k ms qs qs' :
    quants c U U0 row k ms qs -> quants c U U0 row k ms qs' -> qs = qs'.
  Proof.
    intros H. revert qs'. induction H as [|k m ms q qs Hq Hqs IH]; intros qs' H'; inversion H'; subst; [reflexivity|].
    f_equal; [congruence|auto].
  Qed.

  Lemma put_fold_same {A} : forall (l : list (nat * A)) (a b : list (v3 A)),
    length a = length b -> (forall k, In k (map fst l) -> k < 3 * length a) ->
    (forall k, ~ In k (map fst l) -> nth_error (vflat a) k = nth_error (vflat b) k) ->
    fold_left (fun acc p => put_flat1 acc (fst p) (snd p)) l a =
    fold_left (fun acc p => put_flat1 acc (fst p) (snd p)) l b.
  Proof.
    induction l as [|[k v] l IH]; intros a b Hl Hr H; cbn [fold_left fst snd map] in *.
    - apply vflat_inj, nth_error_ext. intros i. apply H. intros [].
    - assert (Hk : k < 3 * length a) by (apply Hr; left; reflexivity).
      apply IH; rewrite ?put_flat1_length; auto. { intros i Hi. apply Hr. right. exact Hi. }
      intros i Hi. rewrite !put_flat1_flat by lia. rewrite !nth_error_set_nth, !vflat_length, Hl.
      destruct (_ && _) eqn:E; [reflexivity|]. apply H. intros [->|Hx]; [|contradiction].
      rewrite Nat.eqb_refl in E. cbn in E. apply Nat.ltb_ge in E. lia.
  Qed.

  Lemma scatter_same (a b : list (v3 F)) dof v a' b' :
    length a = length b ->
    (forall k, ~ In k dof -> nth_error (vflat a) k = nth_error (vflat b) k) ->
    scatter a dof v = Ok a' -> scatter b dof v = Ok b' -> a' = b'.
  Proof.
    intros Hl H Ha Hb. unfold scatter in *.
    destruct (forallb (fun k => k <? 3 * length a) dof) eqn:Ef; [|discriminate].
    rewrite forallb_forall in Ef.
    destruct (forallb (fun k => k <? 3 * length b) dof); [|discriminate].
    destruct (Nat.eqb_spec (length v) (length dof)) as [E|E].
    - injection Ha as <-. injection Hb as <-.
      assert (Em : map fst (combine dof v) = dof).
      { clear - E. revert v E. induction dof as [|d dof IH]; intros [|x v] E; cbn in *; try lia; auto.
        f_equal. apply IH. lia. }
      apply put_fold_same; rewrite ?Em; auto. intros k Hk. apply Nat.ltb_lt, Ef, Hk.
    - destruct v as [|x [|y v]]; try discriminate. injection Ha as <-. injection Hb as <-.
      assert (G : forall (z : list (v3 F)), fold_left (fun acc k => put_flat1 acc k x) dof z =
        fold_left (fun acc p => put_flat1 acc (fst p) (snd p)) (map (fun k => (k, x)) dof) z).
      { clear. induction dof as [|d dof IH]; intros z; cbn; auto. }
      rewrite !G. assert (Em : map fst (map (fun k => (k, x)) dof) = dof) by (rewrite map_map; apply map_id).
      apply put_fold_same; rewrite ?Em; auto. intros k Hk. apply Nat.ltb_lt, Ef, Hk.
  Qed.

  (** The result of an evaluation depends only on the argument, the model, the
      locked displacements, the state table and the loads. *)
  Lemma equil_det c ms V V0 w w' a b a' b' g g' :
    truss_ok c ms -> sizes_ok c ms a -> sizes_ok c ms b -> same_setup a b -> a_state b = a_state a ->
    c_ndof1 c < length V ->
    equilibrium c V V0 w a = Ok (a', g) -> equilibrium c V V0 w' b = Ok (b', g') ->
    g' = g /\ a_g b' = a_g a' /\ a_r b' = a_r a' /\ a_U b' = a_U a' /\ a_U0 b' = a_U0 a' /\
    a_stretch b' = a_stretch a' /\ a_stress b' = a_stress a' /\ a_force b' = a_force a'.
  Proof.
    intros Hok Hsa Hsb (_ & _ & HD & _ & Hfc & Hfo & _ & _ & HU & HU0) Hst HV Ea Eb.
    pose proof (equilibrium_parts _ _ _ _ _ _ _ Ea) as (Ua & U0a & a2 & SUa & SU0a & La & _ & _ & Xa).
    pose proof (equilibrium_parts _ _ _ _ _ _ _ Eb) as (Ub & U0b & b2 & SUb & SU0b & Lb & _ & _ & Xb).
    apply elem_loop_frame in La, Lb.
    destruct La as ((A1 & A2 & _) & _), Lb as ((B1 & B2 & _) & _). cbn in A1, A2, B1, B2.
    rewrite HD in SUb, SU0b.
    assert (EU : Ub = Ua).
    { eapply scatter_same; [| |exact SUb|exact SUa]; [|exact HU].
      destruct Hsa as (L1 & _), Hsb as (L2 & _). congruence. }
    assert (EU0 : U0b = U0a).
    { eapply scatter_same; [| |exact SU0b|exact SU0a]; [|exact HU0].
      destruct Hsa as (_ & L1 & _), Hsb as (_ & L2 & _). congruence. }
    assert (EUU : a_U b' = a_U a') by (rewrite Xa, Xb; cbn; congruence).
    assert (EUU0 : a_U0 b' = a_U0 a') by (rewrite Xa, Xb; cbn; congruence).
    destruct (gequilibrium_inv _ _ _ _ _ _ _ _ Hok Hsa Ea) as (an1 & qs & ga & Hpa & Hsa1 & Hqa & Era & (sa & G1a & G2a) & Ga).
    destruct (gequilibrium_inv _ _ _ _ _ _ _ _ Hok Hsb Eb) as (bn1 & qb & gb & Hpb & Hsb1 & Hqb & Erb & (sb & G1b & G2b) & Gb).
    assert (El : ext_lpf c V (a_lpf b) = ext_lpf c V (a_lpf a)).
    { unfold ext_lpf. destruct (Nat.ltb_spec (c_ndof1 c) (length V)); [reflexivity|lia]. }
    rewrite EUU, EUU0 in Hqb.
    assert (Eq : qb = qs).
    { eapply quants_fun; [|exact Hqa]. eapply quants_ext; [|exact Hqb].
      intros j _. unfold state_row. rewrite Hst. reflexivity. }
    subst qb. pose proof (quants_length _ _ _ _ _ _ _ Hqa) as Hlq.
    destruct (gprepare_frame _ _ _ _ _ _ _ _ Hpa) as (_ & _ & _ & _ & _ & _ & Ra).
    destruct (gprepare_frame _ _ _ _ _ _ _ _ Hpb) as (_ & _ & _ & _ & _ & _ & Rb).
    assert (Err : a_r b' = a_r a').
    { rewrite Era, Erb. cbn. rewrite !loop_r by exact Hlq. rewrite Ra, Rb by reflexivity. f_equal.
      destruct Hsa as (_ & _ & Hra & _), Hsb as (_ & _ & Hrb & _).
      clear - Hra Hrb. revert Hra Hrb. generalize (a_r a), (a_r b), (length (c_labels c)).
      induction l as [|x l IH]; intros [|y l'] n H1 H2; cbn in *; try lia; auto. f_equal. eapply (IH l' (pred n)); lia. }
    assert (Eg : gb = ga).
    { rewrite Err, Hfc in G1b. rewrite El, Hfo in G2b.
      assert (sb = sa) by congruence. subst sb. congruence. }
    assert (Hla : length (a_stretch an1) = length ms /\ length (a_stress an1) = length ms /\ length (a_force an1) = length ms)
      by (destruct Hsa1 as (_ & _ & _ & _ & _ & ? & ? & ? & _); auto).
    assert (Hlb : length (a_stretch bn1) = length ms /\ length (a_stress bn1) = length ms /\ length (a_force bn1) = length ms)
      by (destruct Hsb1 as (_ & _ & _ & _ & _ & ? & ? & ? & _); auto).
    destruct Hla as (La1 & La2 & La3), Hlb as (Lb1 & Lb2 & Lb3).
    repeat match goal with |- _ /\ _ => split end; auto.
    - rewrite HD in Gb. congruence.
    - rewrite Era, Erb. cbn. exact Eg.
    - rewrite Era, Erb. cbn. rewrite !loop_stretch; auto.
    - rewrite Era, Erb. cbn. rewrite !loop_stress; auto.
    - rewrite Era, Erb. cbn. rewrite !loop_force; auto.
  Qed.

  (** The recorded residual. *)
  Lemma residual_recorded c V V0 w an an' gr :
    equilibrium c V V0 w an = Ok (an', gr) -> c_ndof1 c < length V ->
    (exists s1, bcast2 fadd (map fopp (vflat (a_r an'))) (concat (a_fconst an')) = Ok s1 /\
       bcast2 fadd s1 (map (fmul (last V f0)) (concat (a_forces an'))) = Ok (a_g an')) /\
    gather (a_g an') (a_DOF1 an') = Ok gr.
  Proof.
    intros H HV. apply equilibrium_parts in H.
    destruct H as (U & U0 & a2 & _ & _ & Hl & (s1 & H1 & H2) & Hg & E).
    assert (El : ext_lpf c V (a_lpf an) = last V f0).
    { unfold ext_lpf. destruct (Nat.ltb_spec (c_ndof1 c) (length V)); [reflexivity|lia]. }
    rewrite El in H2. rewrite E. cbn. split; [|exact Hg]. exists s1. auto.
  Qed.

  (** ** State variables *)
  Lemma member_state c U U0 row m q :
    member_q c U U0 (Some row) m = Ok q ->
    exists de r dsde, umat (mb_law m) (fsub (q_lam q) f1) de (mb_mat m) (Some row) = Ok (q_stress q, dsde, Some r) /\
      q_state q = Some r.
  Proof.
    unfold member_q. intros H. pose proof (truss_quantities_state _ _ _ _ _ _ _ _ _ _ _ H) as [_ Hs].
    unfold truss_quantities in H. cbv zeta in H. apply bind_ok in H. destruct H as ([[s d] sv] & Hu & H).
    apply bind_ok in H. destruct H as (A & _ & H). injection H as <-. cbn in *.
    destruct sv as [r|]; [|destruct Hs; [discriminate|reflexivity]].
    do 3 eexists. split; [exact Hu|reflexivity].
  Qed.

  Lemma state_written c ms V V0 an an' gr sv :
    truss_ok c ms -> sizes_ok c ms an -> equilibrium c V V0 true an = Ok (an', gr) ->
    (0 < c_nstatev c)%Z -> a_state an = Some sv ->
    exists sv', a_state an' = Some sv' /\ length sv' = length ms /\
      forall k m, nth_error ms k = Some m ->
        exists row row' lam stress de dsde,
          nth_error sv k = Some row /\ nth_error sv' k = Some row' /\
          nth_error (a_stretch an') k = Some lam /\ nth_error (a_stress an') k = Some stress /\
          umat (mb_law m) (fsub lam f1) de (mb_mat m) (Some row) = Ok (stress, dsde, Some row').
  Proof.
    intros Hok Hsz H Hn Hs.
    destruct (gequilibrium_inv _ _ _ _ _ _ _ _ Hok Hsz H) as (an1 & qs & g & Hp & Hsz1 & Hq & E & _ & _).
    pose proof (quants_length _ _ _ _ _ _ _ Hq) as Hlq.
    destruct (gprepare_frame _ _ _ _ _ _ _ _ Hp) as (Hs1 & _).
    assert (Hlsv : length sv = length ms).
    { destruct Hsz as (_ & _ & _ & _ & _ & _ & _ & _ & _ & _ & _ & Hsv). destruct (Hsv Hn) as (sv0 & E0 & L0). congruence. }
    assert (Hrow : forall k m, nth_error ms k = Some m -> exists row q de r dsde,
        nth_error sv k = Some row /\ nth_error qs k = Some q /\ q_state q = Some r /\
        umat (mb_law m) (fsub (q_lam q) f1) de (mb_mat m) (Some row) = Ok (q_stress q, dsde, Some r)).
    { intros k m Hk. destruct (quants_nth _ _ _ _ _ _ _ Hq _ _ Hk) as (q & Hqk & Hmq). cbn [Nat.add] in Hmq.
      assert (Hkl : k < length sv) by (rewrite Hlsv; apply nth_error_Some; congruence).
      destruct (nth_error sv k) as [row|] eqn:Er; [|apply nth_error_None in Er; lia].
      assert (Esr : state_row c an k = Some row).
      { unfold state_row. destruct (Z.ltb_spec 0 (c_nstatev c)); [|lia]. rewrite Hs. exact Er. }
      rewrite Esr in Hmq. apply member_state in Hmq. destruct Hmq as (de & r & dsde & Hu & Hr).
      exists row, q, de, r, dsde. auto. }
    assert (Hrows : exists rows, map q_state qs = map Some rows).
    { exists (map (fun q => match q_state q with Some r => r | None => [] end) qs).
      rewrite map_map. apply map_ext_in. intros q Hin. apply In_nth_error in Hin. destruct Hin as [k Hk].
      assert (Hkl : k < length ms) by (rewrite <- Hlq; apply nth_error_Some; congruence).
      destruct (nth_error ms k) as [m|] eqn:Em; [|apply nth_error_None in Em; lia].
      destruct (Hrow _ _ Em) as (row & q' & de & r & dsde & _ & Hq' & Hr & _).
      assert (q' = q) by congruence. subst q'. rewrite Hr. reflexivity. }
    destruct Hrows as [rows Hrows].
    exists rows. assert (Hst : a_state an' = Some rows).
    { rewrite E. cbn. eapply loop_state_write; eauto; congruence. }
    split; [exact Hst|].
    assert (Hlr : length rows = length ms).
    { apply (f_equal (@length _)) in Hrows. rewrite !map_length in Hrows. congruence. }
    split; [exact Hlr|].
    intros k m Hk. destruct (Hrow _ _ Hk) as (row & q & de & r & dsde & Hr1 & Hq1 & Hr2 & Hu).
    exists row, r, (q_lam q), (q_stress q), de, dsde.
    assert (Hl1 : length (a_stretch an1) = length ms /\ length (a_stress an1) = length ms)
      by (destruct Hsz1 as (_ & _ & _ & _ & _ & ? & ? & _); auto).
    destruct Hl1 as [Hl1 Hl2].
    repeat split; auto.
    - assert (Eo : nth_error (map Some rows) k = Some (Some r)) by (rewrite <- Hrows, nth_error_map, Hq1; cbn; congruence).
      rewrite nth_error_map in Eo. destruct (nth_error rows k); cbn in Eo; congruence.
    - rewrite E. cbn. rewrite loop_stretch by auto. rewrite nth_error_map, Hq1. reflexivity.
    - rewrite E. cbn. rewrite loop_stress by auto. rewrite nth_error_map, Hq1. reflexivity.
  Qed.
End Eval.
