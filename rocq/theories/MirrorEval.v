(** * Residual and stiffness of a mirrored truss *)
From Coq Require Import List ZArith Bool Arith Lia Reals Lra.
Import ListNotations.
From Verif Require Import Num NumR Vec Handlers Material Analysis Truss Equil Solver Run ListFacts SpecSame SpecMirror MirrorFacts.
Local Open Scope R_scope.

Definition rows3 (l : list (list R)) : Prop := Forall (fun r => (length r mod 3 = 0)%nat) l.

(** Rows and columns of a matrix with changed signs. *)
Definition flipM (es ds : list bool) (M : list (list R)) : list (list R) := map2 (fun e row => map (opp_if e) (flip ds row)) es M.

Section Eval.
  Variable mir : v3 bool.
  Variable rv : bool.
  Notation mirror := (mirror mir).
  Notation mirror_block := (mirror_block mir).
  Notation mirror_row := (mirror_row mir).
  Notation turned := (turned mir).
  Notation mirror_load := (mirror_load mir rv).
  Variable D1 : list nat.
  Notation bs := (unknowns mir rv D1).
  Notation n := (length D1).

  Definition Mir (a a' : analysis R) : Prop :=
    a_DOF1 a = D1 /\ rows3 (a_fconst a) /\ rows3 (a_forces a) /\ (length (a_Ured a) = n /\ (length (a_Vred a) <= S n)%nat) /\ mirrored_result mir rv a a'.

  Definition mctx (c : ctx R) : ctx R :=
    Ctx (c_labels c) (map mirror (c_coords c)) (c_elems c) (c_nnodes c) (c_ndof1 c) (c_nstatev c).

  Ltac open_mir HM := let H := fresh in destruct HM as (?HD & ?H3a & ?H3b & [?HLU ?HLV] & H); unfold mirrored_result in H; cbv zeta in H; rewrite HD in H;
    destruct H as (?Estep & ?ED0 & ?ED1 & ?EU & ?EU0 & ?Er & ?Eg & ?EK & ?Estr & ?Efrc & ?Ests & ?Est & ?Elpf & ?EdV & ?Ej & ?EUr & ?EVr & ?Ef0 & ?EKr & ?Efc & ?Efo).
  Ltac close_mir := split; [assumption|]; split; [assumption|]; split; [assumption|];
    split; [first [split; assumption|idtac]|];
    unfold mirrored_result; cbv zeta;
    cbn [a_step a_U a_U0 a_r a_g a_K a_stretch a_force a_stress a_DOF0 a_DOF1 a_Ured a_Vred a_lpf a_state a_dVmax a_j a_Kred a_Kmod a_f0red a_fconst a_forces
         set_step set_U set_U0 set_r set_g set_K set_stretch set_force set_stress set_Ured set_Vred set_lpf set_state set_dVmax set_j set_Kred set_Kmod set_f0red set_fconst set_forces];
    repeat match goal with H : a_DOF1 _ = D1 |- _ => rewrite H end;
    repeat (split; [first [assumption|reflexivity|congruence|idtac]|]); try first [assumption|reflexivity|congruence].

  Lemma truss_mirror e NA NE XA XE UA UE U0A U0E rA rE nl el st sv mat geo u a a' b sv' : Mir a a' ->
    truss e NA NE XA XE UA UE U0A U0E rA rE nl el st sv mat geo u a = Ok (b, sv') ->
    exists b', truss e NA NE (mirror XA) (mirror XE) (mirror UA) (mirror UE) (mirror U0A) (mirror U0E) (mirror rA) (mirror rE) nl el st sv mat geo u a' = Ok (b', sv') /\ Mir b b'.
  Proof.
    intros HM H. pose proof HM as HM0. unfold truss in *. cbv zeta in *. apply bind_ok in H. destruct H as (sve & -> & H). cbn [bind].
    apply bind_ok in H. destruct H as (q & Hq & H). rewrite (quantities_mirror mir _ _ _ _ _ _ _ _ _ _ _ Hq). cbn [bind].
    open_mir HM. destruct st.
    - apply bind_ok in H. destruct H as (str & H1 & H). apply bind_ok in H. destruct H as (sts & H2 & H). apply bind_ok in H. destruct H as (frc & H3 & H).
      apply bind_ok in H. destruct H as (sv2 & H4 & H). apply bind_ok in H. destruct H as (r1 & H5 & H). apply bind_ok in H. destruct H as (r2 & H6 & H).
      injection H as <- <-. cbn [mirror_q q_n q_L q_l q_lam q_stress q_dsde q_A q_N q_state].
      rewrite Estr, Efrc, Ests, H1, H2, H3. cbn [bind].
      match goal with |- context [bind ?x _] => replace x with (Ok sv2) by (symmetry; exact H4) end. cbn [bind].
      rewrite Er, <- mirror_neg, <- !mirror_scale, <- !mirror_add.
      rewrite (put_map mirror _ _ _ _ H5). cbn [bind]. rewrite (put_map mirror _ _ _ _ H6). cbn [bind].
      eexists. split; [reflexivity|]. close_mir.
    - apply bind_ok in H. destruct H as (iA & -> & H). cbn [bind]. apply bind_ok in H. destruct H as (iE & -> & H). cbn [bind].
      rewrite KTEE_mirror, EK, <- block_neg.
      apply bind_ok in H. destruct H as (K1 & H1 & H). rewrite (K_add_mirror mir _ _ _ _ _ H1). cbn [bind].
      apply bind_ok in H. destruct H as (K2 & H2 & H). rewrite (K_add_mirror mir _ _ _ _ _ H2). cbn [bind].
      apply bind_ok in H. destruct H as (K3 & H3 & H). rewrite (K_add_mirror mir _ _ _ _ _ H3). cbn [bind].
      apply bind_ok in H. destruct H as (K4 & H4 & H). rewrite (K_add_mirror mir _ _ _ _ _ H4). cbn [bind].
      injection H as <- <-. eexists. split; [reflexivity|]. close_mir.
  Qed.

  Lemma elem_step_mirror c st Ured lpf w a a' u e b u1 : length Ured = n -> Mir a a' ->
    elem_step c st Ured lpf w (a, u) e = Ok (b, u1) ->
    exists b', elem_step (mctx c) st (flip bs Ured) (opp_if rv lpf) w (a', u) e = Ok (b', u1) /\ Mir b b'.
  Proof.
    intros HlU HM H. unfold elem_step in *. cbv zeta in *. cbn [fst snd] in *. unfold mctx, node_row in *. cbn [c_labels c_coords c_elems c_nnodes c_ndof1 c_nstatev].
    apply bind_ok in H. destruct H as ([NA NE] & -> & H). cbn [bind].
    apply bind_ok in H. destruct H as (mat & -> & H). cbn [bind]. apply bind_ok in H. destruct H as (geo & -> & H). cbn [bind].
    apply bind_ok in H. destruct H as (XA & H1 & H). rewrite (gather0_map mirror _ _ _ H1). cbn [bind].
    apply bind_ok in H. destruct H as (XE & H2 & H). rewrite (gather0_map mirror _ _ _ H2). cbn [bind].
    pose proof HM as HM0. open_mir HM0. rewrite EU, EU0, Er, Est.
    apply bind_ok in H. destruct H as (UA & H3 & H). rewrite (gather0_map mirror _ _ _ H3). cbn [bind].
    apply bind_ok in H. destruct H as (UE & H4 & H). rewrite (gather0_map mirror _ _ _ H4). cbn [bind].
    apply bind_ok in H. destruct H as (U0A & H5 & H). rewrite (gather0_map mirror _ _ _ H5). cbn [bind].
    apply bind_ok in H. destruct H as (U0E & H6 & H). rewrite (gather0_map mirror _ _ _ H6). cbn [bind].
    apply bind_ok in H. destruct H as (sv & -> & H). cbn [bind].
    apply bind_ok in H. destruct H as (rA & H7 & H). rewrite (gather0_map mirror _ _ _ H7). cbn [bind].
    apply bind_ok in H. destruct H as (rE & H8 & H). rewrite (gather0_map mirror _ _ _ H8). cbn [bind].
    apply bind_ok in H. destruct H as (mt & -> & H). cbn [bind]. destruct (select_umat u mt) as [um|]; [|discriminate].
    apply bind_ok in H. destruct H as ([a1 sv'] & Ht & H).
    destruct (truss_mirror _ _ _ _ _ _ _ _ _ _ _ _ _ _ _ _ _ _ _ _ _ _ HM Ht) as (b1 & -> & M1). cbn [bind].
    injection H as <- <-. eexists. split; [reflexivity|]. destruct (w && _)%bool; [|exact M1].
    clear - HlU M1. open_mir M1. close_mir; [rewrite app_length; cbn; lia|]. symmetry. apply flip_unknowns_snoc, HlU.
  Qed.

  Lemma elem_loop_mirror c st Ured lpf w a a' b : length Ured = n -> Mir a a' -> elem_loop c st Ured lpf w a = Ok b ->
    exists b', elem_loop (mctx c) st (flip bs Ured) (opp_if rv lpf) w a' = Ok b' /\ Mir b b'.
  Proof.
    intros HlU HM H. unfold elem_loop in *. apply bind_ok in H. destruct H as ([b0 u0] & H & Hb). injection Hb as <-. cbn [fst].
    change (el_labels (c_elems (mctx c))) with (el_labels (c_elems c)). generalize dependent (@None umat_id). intros u.
    revert u a a' HM. induction (el_labels (c_elems c)) as [|e l IH]; intros u a a' HM H; cbn [foldM] in *.
    - injection H as <- <-. eexists. split; [reflexivity|exact HM].
    - apply bind_ok in H. destruct H as ([a1 u1] & H1 & H). destruct (elem_step_mirror _ _ _ _ _ _ _ _ _ _ _ HlU HM H1) as (a1' & -> & M1). cbn [bind].
      apply (IH _ _ _ M1 H).
  Qed.

  Lemma unknowns_length : length bs = S n.
  Proof. unfold unknowns. rewrite app_length, map_length. cbn. lia. Qed.

  (** [V] is a displacement vector, or one with the load factor appended. *)
  Lemma prepare_mirror c st V V0 a a' b u lam : c_ndof1 c = n -> (length V = n \/ length V = S n) -> (length V = length V0)%nat -> Mir a a' ->
    equil_prepare c st V V0 a = Ok (b, u, lam) ->
    length u = n /\ exists b', equil_prepare (mctx c) st (flip bs V) (flip bs V0) a' = Ok (b', flip bs u, opp_if rv lam) /\ Mir b b'.
  Proof.
    intros Hn HV HV0 HM H. unfold equil_prepare in *. cbv zeta in *. unfold mctx. cbn [c_ndof1]. rewrite Hn in *.
    rewrite !flip_len by (rewrite unknowns_length; lia).
    set (ext := Nat.ltb n (length V)) in *.
    set (u1 := if ext then firstn n V else V) in *. set (u0 := if ext then firstn n V0 else V0) in *.
    assert (L1 : length u1 = n). { unfold u1, ext. destruct (Nat.ltb_spec n (length V)); [rewrite firstn_length|]; lia. }
    assert (L0 : length u0 = n). { unfold u0, ext. destruct (Nat.ltb_spec n (length V)); [rewrite firstn_length|]; lia. }
    assert (Hsp : forall W, length W = length V -> exists w l, length w = n /\ (if ext then firstn n W else W) = w /\
      (if ext then firstn n (flip bs W) else flip bs W) = flip bs w /\ (ext = true -> W = w ++ [l])).
    { intros W HW. unfold ext. destruct (Nat.ltb_spec n (length V)) as [Hlt|Hge].
      - assert (HW' : length W = S n) by lia. destruct (exists_last (l := W)) as (w & l & ->); [intros ->; discriminate|].
        rewrite app_length in HW'. cbn in HW'. assert (Hw : length w = n) by lia. exists w, l. split; [exact Hw|].
        rewrite flip_unknowns_snoc by exact Hw. rewrite !firstn_app, <- Hw.
        rewrite (flip_len bs w) by (rewrite unknowns_length; lia). rewrite Nat.sub_diag, !firstn_O, !app_nil_r.
        rewrite (firstn_all w). split; [reflexivity|]. split; [|reflexivity].
        rewrite <- (flip_len bs w) at 1 by (rewrite unknowns_length; lia). apply firstn_all.
      - exists W, 0. split; [lia|]. split; [reflexivity|]. split; [reflexivity|discriminate]. }
    destruct (Hsp V eq_refl) as (w & l & Lw & E1 & E2 & E3). destruct (Hsp V0 (eq_sym HV0)) as (w0 & l0 & Lw0 & E4 & E5 & _).
    fold u1 in E1. fold u0 in E4. rewrite E1 in *. rewrite E4 in *. rewrite E2, E5.
    assert (El : (if ext then last (flip bs V) f0 else a_lpf a') = opp_if rv (if ext then last V f0 else a_lpf a)).
    { destruct ext; [|apply HM]. rewrite (E3 eq_refl). rewrite flip_unknowns_snoc by exact Lw. rewrite !last_snoc. reflexivity. }
    rewrite El. clear El. apply bind_ok in H. destruct H as (U & HU & H). apply bind_ok in H. destruct H as (U0 & HU0 & H). injection H as <- <- <-.
    split; [exact Lw|]. open_mir HM.
    assert (S1 : forall A (x : list (v3 R)) (y : list R), length y = n -> scatter x D1 y = Ok A -> scatter (map mirror x) D1 (flip bs y) = Ok (map mirror A)).
    { intros A x y Hy Hs. rewrite flip_unknowns by exact Hy. apply scatter_mirror; assumption. }
    destruct st; cbn [a_U a_U0 a_DOF1 set_r set_K] in *; rewrite HD in *; rewrite EU, EU0, ED1, ?Er, ?EK;
      rewrite (S1 _ _ _ Lw HU); cbn [bind]; rewrite (S1 _ _ _ Lw0 HU0); cbn [bind]; (eexists; split; [reflexivity|]); close_mir.
    - rewrite !map_map. apply map_ext. intros. symmetry. apply mirror_zero.
    - rewrite !map_map. apply map_ext. intros row. rewrite !map_map. apply map_ext. intros. symmetry. apply block_zero.
  Qed.

  Lemma bcast_rows f x y z : (length x mod 3 = 0)%nat -> (length y mod 3 = 0)%nat -> (forall b u v, opp_if b (f u v) = f (opp_if b u) (opp_if b v)) ->
    bcast2 f x y = Ok z -> bcast2 f (mirror_row x) (mirror_row y) = Ok (mirror_row z) /\ length z = length x.
  Proof.
    intros Hx Hy Hf H. unfold bcast2 in *. rewrite !mirror_row_length. destruct (Nat.eqb_spec (length x) (length y)) as [E|E].
    - injection H as <-. rewrite mirror_row_map2 by assumption. split; [reflexivity|]. rewrite map2_length. lia.
    - destruct x as [|x1 [|x2 x]], y as [|y1 [|y2 y]]; try discriminate H; try discriminate Hx; try discriminate Hy; cbn in E; lia.
  Qed.
  Lemma concat_mod3 rows : rows3 rows -> (length (concat rows) mod 3 = 0)%nat.
  Proof.
    induction 1 as [|r rows H _ IH]; [reflexivity|]. cbn [concat]. rewrite app_length, Nat.add_mod, H, IH by lia. reflexivity.
  Qed.

  Lemma load_concat rows : concat (map mirror_load rows) = map (opp_if rv) (concat (map mirror_row rows)).
  Proof. induction rows as [|r rows IH]; [reflexivity|]. cbn [map concat]. rewrite map_app, IH. reflexivity. Qed.
  Lemma load_scaled lam l : map (Rmult (opp_if rv lam)) (map (opp_if rv) l) = map (Rmult lam) l.
  Proof. rewrite map_map. apply map_ext. intros x. apply opp_if_sq. Qed.

  Lemma equilibrium_mirror c V V0 w a a' b gr : c_ndof1 c = n -> length V = S n -> length V0 = S n -> Mir a a' ->
    equilibrium c V V0 w a = Ok (b, gr) ->
    length gr = n /\ exists b', equilibrium (mctx c) (flip bs V) (flip bs V0) w a' = Ok (b', flip bs gr) /\ Mir b b'.
  Proof.
    intros Hn HV HV0 HM H. unfold equilibrium in *. apply bind_ok in H. destruct H as ([[a1 u] lam] & H1 & H).
    destruct (prepare_mirror _ _ _ _ _ _ _ _ _ Hn (or_intror HV) (eq_trans HV (eq_sym HV0)) HM H1) as (Lu & a1' & -> & M1). cbn [bind].
    apply bind_ok in H. destruct H as (a2 & H2 & H). destruct (elem_loop_mirror _ _ _ _ _ _ _ _ Lu M1 H2) as (a2' & -> & M2). cbn [bind].
    apply bind_ok in H. destruct H as (s1 & H3 & H). apply bind_ok in H. destruct H as (g & H4 & H). apply bind_ok in H. destruct H as (gred & H5 & H).
    injection H as <- <-. open_mir M2. rewrite HD in H5.
    rewrite Er, Efc, Efo, ED1, load_concat, mirror_row_vflat, !mirror_row_concat by assumption. numR. rewrite load_scaled.
    assert (Hadd : forall b u v, opp_if b (u + v) = opp_if b u + opp_if b v) by exact opp_if_add.
    destruct (bcast_rows Rplus _ _ _ ltac:(rewrite map_length, vflat_length, Nat.mul_comm; apply Nat.mod_mul; lia) (concat_mod3 _ H3a) Hadd H3) as [G1 L1].
    rewrite <- (mirror_row_map mir Ropp) by (intros; apply opp_if_opp). rewrite G1. cbn [bind].
    destruct (bcast_rows Rplus _ _ _ ltac:(rewrite L1, map_length, vflat_length, Nat.mul_comm; apply Nat.mod_mul; lia)
      ltac:(rewrite map_length; apply (concat_mod3 _ H3b)) Hadd H4) as [G2 L2].
    rewrite <- (mirror_row_map mir (Rmult lam)) by (intros; apply opp_if_scale). rewrite G2. cbn [bind].
    rewrite (gather_mirror mir _ _ _ H5). cbn [bind]. pose proof (gather_len _ _ _ H5) as Lg. split; [exact Lg|].
    rewrite flip_unknowns by exact Lg. eexists. split; [reflexivity|]. close_mir.
  Qed.

  (** ** Stiffness *)
  Lemma flat_K_mirror K p : nth_error (flat_K (map (map mirror_block) K)) p = option_map (fun row => map (opp_if (turned p)) (mirror_row row)) (nth_error (flat_K K) p).
  Proof.
    revert p. induction K as [|row K IH]; intros p; [destruct p; reflexivity|]. unfold flat_K in *. cbn [map flat_map app].
    assert (Hr : forall f c, (c < 3)%nat -> (forall M : m3 R, f (mirror_block M) = vmap (opp_if (vget mir c)) (mirror (f M))) ->
      flat_map (fun b => vlist (f b)) (map mirror_block row) = map (opp_if (vget mir c)) (mirror_row (flat_map (fun b => vlist (f b)) row))).
    { intros f k Hk Hf. induction row as [|M row IHr]; [reflexivity|]. cbn [map flat_map]. rewrite mirror_row_app by reflexivity.
      rewrite map_app, <- IHr. f_equal. rewrite Hf. reflexivity. }
    destruct p as [|[|[|p]]]; cbn [nth_error option_map].
    - f_equal. apply (Hr vx 0%nat); [lia|reflexivity].
    - f_equal. apply (Hr vy 1%nat); [lia|reflexivity].
    - f_equal. apply (Hr vz 2%nat); [lia|reflexivity].
    - rewrite IH. change (S (S (S p))) with (3 + p)%nat. rewrite (turned_shift mir 3 p eq_refl). reflexivity.
  Qed.

  Lemma gather_index {A B} (f : nat -> A -> B) l l' D x : (forall p, nth_error l' p = option_map (f p) (nth_error l p)) ->
    gather l D = Ok x -> gather l' D = Ok (map2 f D x).
  Proof.
    intros Hl. revert x. induction D as [|p D IH]; intros x H; cbn [gather] in *; [injection H as <-; reflexivity|].
    rewrite Hl. destruct (nth_error l p); [|discriminate]. cbn [option_map]. apply bind_ok in H. destruct H as (xs & Hx & H). rewrite (IH _ Hx). injection H as <-. reflexivity.
  Qed.

  Lemma select2_mirror K M : select2 (flat_K K) D1 = Ok M ->
    select2 (flat_K (map (map mirror_block) K)) D1 = Ok (flipM bs bs M) /\ length M = n /\ Forall (fun r => length r = n) M.
  Proof.
    unfold select2. intros H. apply bind_ok in H. destruct H as (rows & Hr & H).
    rewrite (gather_index _ _ _ _ _ (flat_K_mirror K) Hr). cbn [bind]. pose proof (gather_len _ _ _ Hr) as Lr.
    assert (G : forall (ps : list nat) (rws : list (list R)) (acc acc' M : list (list R)), length rws = length ps ->
      foldM (fun acc row => r <- gather row D1 ;; Ok (acc ++ [r])) rws acc = Ok M -> exists M2, M = acc ++ M2 /\ length M2 = length ps /\ Forall (fun r => length r = n) M2 /\
      foldM (fun acc row => r <- gather row D1 ;; Ok (acc ++ [r])) (map2 (fun p row => map (opp_if (turned p)) (mirror_row row)) ps rws) acc' =
        Ok (acc' ++ flipM (map turned ps) bs M2)).
    { induction ps as [|p ps IH]; intros [|row rws] acc acc' M0 Hl HM; try discriminate Hl; cbn [foldM map2] in *.
      - injection HM as <-. exists []. rewrite !app_nil_r. auto.
      - apply bind_ok in HM. destruct HM as (acc1 & H1 & HM). apply bind_ok in H1. destruct H1 as (r & H1 & H2). injection H2 as <-.
        destruct (IH rws (acc ++ [r]) (acc' ++ [map (opp_if (turned p)) (flip bs r)]) M0 ltac:(cbn in Hl; lia) HM) as (M2 & E & L2 & F2 & G).
        exists (r :: M2). pose proof (gather_len _ _ _ H1) as L1. split; [rewrite E, <- app_assoc; reflexivity|]. split; [cbn; lia|]. split; [constructor; assumption|].
        rewrite gather_map_ok, (gather_mirror mir _ _ _ H1). cbn [bind]. rewrite <- (flip_unknowns mir rv D1 r L1). rewrite G, <- app_assoc. reflexivity. }
    destruct (G D1 rows [] [] M Lr H) as (M2 & E & L2 & F2 & G2). cbn [app] in E. subst M2. rewrite G2. cbn [app].
    split; [|auto]. f_equal. unfold flipM. clear - L2.
    assert (E : forall (f : bool -> list R -> list R) ps Q, length Q = length ps -> map2 f (map turned ps) Q = map2 f (map turned ps ++ [rv]) Q).
    { intros f. induction ps as [|p ps IH]; intros [|r Q] H; try discriminate H; [reflexivity|]. cbn. f_equal. apply IH. cbn in H. lia. }
    apply (E _ D1 M L2).
  Qed.

  Lemma stiffness_mirror c U a a' b K : c_ndof1 c = n -> length U = n -> Mir a a' -> stiffness c U a = Ok (b, K) ->
    length K = n /\ Forall (fun r => length r = n) K /\ exists b', stiffness (mctx c) (flip bs U) a' = Ok (b', flipM bs bs K) /\ Mir b b'.
  Proof.
    intros Hn HU HM H. unfold stiffness in *. apply bind_ok in H. destruct H as ([[a1 u] lam] & H1 & H).
    destruct (prepare_mirror _ _ _ _ _ _ _ _ _ Hn (or_introl HU) eq_refl HM H1) as (Lu & a1' & -> & M1). cbn [bind].
    apply bind_ok in H. destruct H as (a2 & H2 & H). destruct (elem_loop_mirror _ _ _ _ _ _ _ _ Lu M1 H2) as (a2' & -> & M2). cbn [bind].
    apply bind_ok in H. destruct H as (Kr & H3 & H). injection H as <- <-. open_mir M2. rewrite HD in H3.
    destruct (select2_mirror _ _ H3) as (G & L & Fo). rewrite EK, ED1, G. cbn [bind]. split; [exact L|]. split; [exact Fo|].
    eexists. split; [reflexivity|]. close_mir.
  Qed.
End Eval.
