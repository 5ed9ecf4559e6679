(** * Evaluations in another unit of force *)
From Coq Require Import List ZArith Bool Arith Lia Reals Lra.
Import ListNotations.
From Verif Require Import Num NumR Vec Handlers Material Analysis Truss Equil Solver Run ListFacts SpecSame SpecUnit MirrorFacts.
Local Open Scope R_scope.

Section Unit.
  Variable t : R.
  Hypothesis Ht : 0 < t.
  Notation sc := (map (Rmult t)).
  Notation srow := (rescaled_state t).

  Lemma t_eq0 x : Reqb (t * x) 0 = Reqb x 0.
  Proof.
    unfold Reqb. destruct (Req_EM_T (t * x) 0) as [E|E], (Req_EM_T x 0) as [E'|E']; try reflexivity.
    - apply Rmult_integral in E. destruct E; [lra|tauto].
    - subst x. rewrite Rmult_0_r in E. tauto.
  Qed.
  Lemma t_le0 x : Rleb (t * x) 0 = Rleb x 0.
  Proof.
    unfold Rleb. destruct (Rle_dec (t * x) 0) as [E|E], (Rle_dec x 0) as [E'|E']; try reflexivity.
    - exfalso. apply E'. nra.
    - exfalso. apply E. nra.
  Qed.
  Lemma t_ltb x y : Rltb (t * x) (t * y) = Rltb x y.
  Proof. unfold Rltb. destruct (Rlt_dec (t * x) (t * y)) as [E|E], (Rlt_dec x y) as [E'|E']; try reflexivity; exfalso; nra. Qed.
  Lemma t_abs x : Rabs (t * x) = t * Rabs x.
  Proof. rewrite Rabs_mult, (Rabs_pos_eq t) by lra. reflexivity. Qed.
  Lemma t_sign x : fsign (t * x) = fsign x.
  Proof.
    rewrite !fsignR. destruct (Rlt_dec 0 (t * x)) as [E|E], (Rlt_dec 0 x) as [E'|E']; try reflexivity; try (exfalso; nra).
    destruct (Rlt_dec (t * x) 0), (Rlt_dec x 0); try reflexivity; exfalso; nra.
  Qed.
  Lemma t_div a b : (t * a) / (t * b) = a / b.
  Proof. unfold Rdiv. rewrite Rinv_mult. replace (t * a * (/ t * / b)) with (a * / b * (t * / t)) by ring. rewrite Rinv_r by lra. ring. Qed.

  Lemma item_sc l i x : item l i = Ok x -> item (sc l) i = Ok (t * x).
  Proof. unfold item. rewrite nth_error_map. destruct (nth_error l i); cbn; [|discriminate]. intros H. injection H as ->. reflexivity. Qed.

  Lemma umat_unit u e de mat sve s d sve' : umat u e de mat sve = Ok (s, d, sve') ->
    umat u e de (sc mat) (option_map srow sve) = Ok (t * s, t * d, option_map srow sve').
  Proof.
    intros H. destruct u; cbn [umat] in *.
    - unfold umat_el in *. apply bind_ok in H. destruct H as (E & H1 & H). rewrite (item_sc _ _ _ H1). cbn [bind]. injection H as <- <- <-.
      numR. rewrite Rmult_assoc. reflexivity.
    - unfold umat_elplast_iso in *. cbv zeta in *. apply bind_ok in H. destruct H as (E & H1 & H). rewrite (item_sc _ _ _ H1). cbn [bind].
      apply bind_ok in H. destruct H as (K & H2 & H). rewrite (item_sc _ _ _ H2). cbn [bind].
      apply bind_ok in H. destruct H as (Sy & H3 & H). rewrite (item_sc _ _ _ H3). cbn [bind].
      destruct sve as [sv|]; [|discriminate]. cbn [option_map].
      apply bind_ok in H. destruct H as (ep & H4 & H). apply bind_ok in H. destruct H as (s0 & H5 & H).
      unfold item in H4, H5. destruct sv as [|v0 [|v1 sv]]; try discriminate. cbn in H4, H5. injection H4 as ->. injection H5 as ->.
      unfold item. cbn [rescaled_state nth_error bind]. numR. rewrite t_eq0.
      set (y := if Reqb s0 0 then Sy else s0) in *.
      replace (if Reqb s0 0 then t * Sy else t * s0) with (t * y) by (unfold y; destruct (Reqb s0 0); reflexivity).
      replace (t * E * (e - ep)) with (t * (E * (e - ep))) by ring. set (tr := E * (e - ep)) in *.
      rewrite t_abs, <- Rmult_minus_distr_l, t_le0. set (f := Rabs tr - y) in *. rewrite t_sign.
      replace (t * E + t * K) with (t * (E + K)) by ring.
      replace (t * E * (t * K)) with (t * (t * (E * K))) by ring. rewrite (t_div f), (t_div (t * (E * K))).
      replace (t * (E * K) / (E + K)) with (t * (E * K / (E + K))) by (unfold Rdiv; ring).
      replace (f / (E + K) * (t * E)) with (t * (f / (E + K) * E)) by ring. rewrite t_div.
      destruct (Rleb f 0); injection H as <- <- <-; cbn [set_nth option_map rescaled_state].
      + replace (t * y + t * K * 0) with (t * (y + K * 0)) by ring. reflexivity.
      + replace (t * y + t * K * (f / (E + K))) with (t * (y + K * (f / (E + K)))) by ring.
        match goal with |- Ok (?a, _, _) = Ok (?b, _, _) => replace a with b by ring end. reflexivity.
  Qed.

  (** ** One element *)
  Definition unit_q (q : truss_q (F:=R)) : truss_q :=
    TrussQ (q_n q) (q_L q) (q_l q) (q_lam q) (t * q_stress q) (t * q_dsde q) (q_A q) (t * q_N q) (option_map srow (q_state q)).

  Lemma quantities_unit XA XE UA UE U0A U0E u mat geo sve q :
    truss_quantities XA XE UA UE U0A U0E u mat geo sve = Ok q ->
    truss_quantities XA XE UA UE U0A U0E u (sc mat) geo (option_map srow sve) = Ok (unit_q q).
  Proof.
    unfold truss_quantities. cbv zeta. intros H. apply bind_ok in H. destruct H as ([[s d] st] & Hu & H). rewrite (umat_unit _ _ _ _ _ _ _ _ Hu). cbn [bind].
    apply bind_ok in H. destruct H as (A & -> & H). cbn [bind]. injection H as <-. unfold unit_q. cbn. numR. rewrite Rmult_assoc. reflexivity.
  Qed.

  Lemma KTEE_unit q : truss_KTEE (unit_q q) = mscale t (truss_KTEE q).
  Proof.
    unfold truss_KTEE. cbn [unit_q q_n q_L q_l q_dsde q_A q_N]. destruct (q_n q) as [x y z]. numR.
    replace (t * q_dsde q * q_A q / q_L q) with (t * (q_dsde q * q_A q / q_L q)) by (unfold Rdiv; ring).
    replace (t * q_N q / q_l q) with (t * (q_N q / q_l q)) by (unfold Rdiv; ring).
    set (a := _ / q_L q). set (b := q_N q / q_l q).
    unfold madd, msub, mscale, meye, vouter, vadd, vsub, vscale, vmap, vmap2. cbn. f_equal; try (f_equal; ring); ring.
  Qed.

  Lemma scale_add u v : vscale t (vadd u v) = vadd (vscale t u) (vscale t v).
  Proof. destruct u, v. unfold vscale, vadd, vmap, vmap2. cbn. f_equal; try (f_equal; ring); ring. Qed.
  Lemma scale_scale a v : vscale (t * a) v = vscale t (vscale a v).
  Proof. destruct v. unfold vscale, vmap. cbn. f_equal; try (f_equal; ring); ring. Qed.
  Lemma scale_zero : vscale t vzero = vzero.
  Proof. unfold vscale, vzero, vmap. cbn. rewrite Rmult_0_r. reflexivity. Qed.
  Lemma mscale_add A B : mscale t (madd A B) = madd (mscale t A) (mscale t B).
  Proof. destruct A, B. unfold mscale, madd, vmap, vmap2. cbn. rewrite !scale_add. reflexivity. Qed.
  Lemma mscale_neg A : mscale t (mneg A) = mneg (mscale t A).
  Proof. destruct A as [[] [] []]. unfold mscale, mneg, vscale, vneg, vmap. cbn. f_equal; try (f_equal; ring); ring. Qed.
  Lemma mscale_zero : mscale t mzero = mzero.
  Proof. unfold mscale, mzero, vmap. cbn. rewrite scale_zero. reflexivity. Qed.

  Lemma K_add_unit K a b M K' : K_add K a b M = Ok K' -> K_add (map (map (mscale t)) K) a b (mscale t M) = Ok (map (map (mscale t)) K').
  Proof.
    unfold K_add. rewrite nth_error_map. destruct (nth_error K a) as [row|]; [|discriminate]. cbn [option_map].
    rewrite nth_error_map. destruct (nth_error row b) as [blk|]; [|discriminate]. cbn [option_map]. intros H. injection H as <-.
    rewrite <- mscale_add, set_nth_map, set_nth_map. reflexivity.
  Qed.

  (** ** Evaluations *)
  Variable D1 : list nat.
  Notation n := (length D1).
  Definition Uni (a a' : analysis R) : Prop := (a_DOF1 a = D1 /\ length (a_Ured a) = n) /\ rescaled_result t a a'.

  Definition uctx (c : ctx R) : ctx R :=
    Ctx (c_labels c) (c_coords c) (rescaled_elems t (c_elems c)) (c_nnodes c) (c_ndof1 c) (c_nstatev c).

  Ltac open_uni HM := let H := fresh in destruct HM as ((?HD & ?HLU) & H); unfold rescaled_result in H;
    destruct H as (?Estep & ?ED0 & ?ED1 & ?EU & ?EU0 & ?EUr & ?EVr & ?Elpf & ?EdV & ?Ej & ?Estr & ?Er & ?Eg & ?EK & ?EKr & ?Ef0 & ?Efrc & ?Ests & ?Est & ?Efc & ?Efo).
  Ltac close_uni := split; [split; assumption|]; unfold rescaled_result;
    cbn [a_step a_U a_U0 a_r a_g a_K a_stretch a_force a_stress a_DOF0 a_DOF1 a_Ured a_Vred a_lpf a_state a_dVmax a_j a_Kred a_Kmod a_f0red a_fconst a_forces
         set_step set_U set_U0 set_r set_g set_K set_stretch set_force set_stress set_Ured set_Vred set_lpf set_state set_dVmax set_j set_Kred set_Kmod set_f0red set_fconst set_forces];
    repeat (split; [first [assumption|reflexivity|congruence|idtac]|]); try first [assumption|reflexivity|congruence].

  Lemma truss_unit e NA NE XA XE UA UE U0A U0E rA rE nl el st sv mat geo u a a' b sv' : Uni a a' ->
    truss e NA NE XA XE UA UE U0A U0E rA rE nl el st sv mat geo u a = Ok (b, sv') ->
    exists b', truss e NA NE XA XE UA UE U0A U0E (vscale t rA) (vscale t rE) nl el st (option_map (map srow) sv) (sc mat) geo u a' = Ok (b', option_map (map srow) sv') /\ Uni b b'.
  Proof.
    intros HM H. unfold truss in *. cbv zeta in *. apply bind_ok in H. destruct H as (sve & Hsve & H).
    assert (Hsve' : match option_map (map srow) sv with None => Ok None | Some sv => r <- gather0 sv (positions e el) ;; Ok (Some r) end = Ok (option_map srow sve)).
    { destruct sv as [sv|]; cbn [option_map]; [|injection Hsve as <-; reflexivity]. apply bind_ok in Hsve. destruct Hsve as (r & Hr & E). injection E as <-.
      rewrite (gather0_map srow _ _ _ Hr). reflexivity. }
    rewrite Hsve'. clear Hsve'. cbn [bind].
    apply bind_ok in H. destruct H as (q & Hq & H). rewrite (quantities_unit _ _ _ _ _ _ _ _ _ _ _ Hq). cbn [bind].
    open_uni HM. destruct st.
    - apply bind_ok in H. destruct H as (str & H1 & H). apply bind_ok in H. destruct H as (sts & H2 & H). apply bind_ok in H. destruct H as (frc & H3 & H).
      apply bind_ok in H. destruct H as (sv2 & H4 & H). apply bind_ok in H. destruct H as (r1 & H5 & H). apply bind_ok in H. destruct H as (r2 & H6 & H).
      injection H as <- <-. cbn [unit_q q_n q_L q_l q_lam q_stress q_dsde q_A q_N q_state].
      rewrite Estr, Efrc, Ests, H1. cbn [bind]. rewrite (put_map (Rmult t) _ _ _ _ H2). cbn [bind]. rewrite (put_map (Rmult t) _ _ _ _ H3). cbn [bind].
      assert (H4' : match option_map (map srow) sv, option_map srow (q_state q) with Some sv, Some row => s <- put sv (positions e el) row ;; Ok (Some s) | _, _ => Ok (option_map (map srow) sv) end
        = Ok (option_map (map srow) sv2)).
      { destruct sv as [sv|]; cbn [option_map]; [|injection H4 as <-; reflexivity]. destruct (q_state q) as [row|]; cbn [option_map]; [|injection H4 as <-; reflexivity].
        apply bind_ok in H4. destruct H4 as (s & Hs & E). injection E as <-. rewrite (put_map srow _ _ _ _ Hs). reflexivity. }
      rewrite H4'. clear H4'. cbn [bind]. rewrite Er, !scale_scale, <- !scale_add.
      rewrite (put_map (vscale t) _ _ _ _ H5). cbn [bind]. rewrite (put_map (vscale t) _ _ _ _ H6). cbn [bind].
      eexists. split; [reflexivity|]. close_uni.
    - apply bind_ok in H. destruct H as (iA & -> & H). cbn [bind]. apply bind_ok in H. destruct H as (iE & -> & H). cbn [bind].
      rewrite KTEE_unit, EK, <- mscale_neg.
      apply bind_ok in H. destruct H as (K1 & H1 & H). rewrite (K_add_unit _ _ _ _ _ H1). cbn [bind].
      apply bind_ok in H. destruct H as (K2 & H2 & H). rewrite (K_add_unit _ _ _ _ _ H2). cbn [bind].
      apply bind_ok in H. destruct H as (K3 & H3 & H). rewrite (K_add_unit _ _ _ _ _ H3). cbn [bind].
      apply bind_ok in H. destruct H as (K4 & H4 & H). rewrite (K_add_unit _ _ _ _ _ H4). cbn [bind].
      injection H as <- <-. eexists. split; [reflexivity|]. close_uni.
  Qed.

  Lemma elem_step_unit c st Ured lpf w a a' u e b u1 : Uni a a' ->
    elem_step c st Ured lpf w (a, u) e = Ok (b, u1) ->
    exists b', elem_step (uctx c) st Ured lpf w (a', u) e = Ok (b', u1) /\ Uni b b'.
  Proof.
    intros HM H. unfold elem_step in *. cbv zeta in *. cbn [fst snd] in *. unfold uctx, node_row, get_nodes, get_material_properties, get_geometric_properties, get_material_type in *.
    cbn [c_labels c_coords c_elems c_nnodes c_ndof1 c_nstatev rescaled_elems el_labels el_conns el_etype el_mtype el_mat el_geo t_rows].
    apply bind_ok in H. destruct H as ([NA NE] & -> & H). cbn [bind].
    apply bind_ok in H. destruct H as (mat & Hmat & H). rewrite (gather0_map sc _ _ _ Hmat). cbn [bind]. apply bind_ok in H. destruct H as (geo & -> & H). cbn [bind].
    apply bind_ok in H. destruct H as (XA & -> & H). cbn [bind]. apply bind_ok in H. destruct H as (XE & -> & H). cbn [bind].
    pose proof HM as HM0. open_uni HM0. rewrite EU, EU0, Er, Est.
    apply bind_ok in H. destruct H as (UA & -> & H). cbn [bind]. apply bind_ok in H. destruct H as (UE & -> & H). cbn [bind].
    apply bind_ok in H. destruct H as (U0A & -> & H). cbn [bind]. apply bind_ok in H. destruct H as (U0E & -> & H). cbn [bind].
    apply bind_ok in H. destruct H as (sv & Hsv & H).
    assert (Hsv' : (if (0 <? c_nstatev c)%Z then match option_map (map srow) (a_state a) with Some sv => Ok (Some sv) | None => Err AttributeError end else Ok None) = Ok (option_map (map srow) sv)).
    { destruct (0 <? c_nstatev c)%Z; [|injection Hsv as <-; reflexivity]. destruct (a_state a); cbn [option_map]; [|discriminate]. injection Hsv as <-. reflexivity. }
    rewrite Hsv'. clear Hsv'. cbn [bind].
    apply bind_ok in H. destruct H as (rA & H7 & H). rewrite (gather0_map (vscale t) _ _ _ H7). cbn [bind].
    apply bind_ok in H. destruct H as (rE & H8 & H). rewrite (gather0_map (vscale t) _ _ _ H8). cbn [bind].
    apply bind_ok in H. destruct H as (mt & -> & H). cbn [bind]. destruct (select_umat u mt) as [um|]; [|discriminate].
    apply bind_ok in H. destruct H as ([a1 sv'] & Htr & H).
    destruct (truss_unit _ _ _ _ _ _ _ _ _ _ _ _ _ _ _ _ _ _ _ _ _ _ HM Htr) as (b1 & -> & M1). cbn [bind].
    injection H as <- <-. eexists. split; [reflexivity|]. destruct (w && _)%bool; [|exact M1].
    clear - M1. open_uni M1. close_uni.
  Qed.

  Lemma elem_loop_unit c st Ured lpf w a a' b : Uni a a' -> elem_loop c st Ured lpf w a = Ok b ->
    exists b', elem_loop (uctx c) st Ured lpf w a' = Ok b' /\ Uni b b'.
  Proof.
    intros HM H. unfold elem_loop in *. apply bind_ok in H. destruct H as ([b0 u0] & H & Hb). injection Hb as <-. cbn [fst].
    change (el_labels (c_elems (uctx c))) with (el_labels (c_elems c)). generalize dependent (@None umat_id). intros u.
    revert u a a' HM. induction (el_labels (c_elems c)) as [|e l IH]; intros u a a' HM H; cbn [foldM] in *.
    - injection H as <- <-. eexists. split; [reflexivity|exact HM].
    - apply bind_ok in H. destruct H as ([a1 u1] & H1 & H). destruct (elem_step_unit _ _ _ _ _ _ _ _ _ _ _ HM H1) as (a1' & -> & M1). cbn [bind].
      apply (IH _ _ _ M1 H).
  Qed.

  Lemma prepare_unit c st V V0 a a' b u lam : Uni a a' ->
    equil_prepare c st V V0 a = Ok (b, u, lam) -> exists b', equil_prepare (uctx c) st V V0 a' = Ok (b', u, lam) /\ Uni b b'.
  Proof.
    intros HM H. unfold equil_prepare in *. cbv zeta in *. unfold uctx. cbn [c_ndof1].
    apply bind_ok in H. destruct H as (U & HU & H). apply bind_ok in H. destruct H as (U0 & HU0 & H). injection H as <- <- <-.
    open_uni HM. rewrite Elpf.
    destruct st; cbn [a_U a_U0 a_DOF1 set_r set_K] in *; rewrite EU, EU0, ED1, ?Er, ?EK, HU; cbn [bind]; rewrite HU0; cbn [bind]; (eexists; split; [reflexivity|]); close_uni.
    - rewrite !map_map. apply map_ext. intros. symmetry. apply scale_zero.
    - rewrite !map_map. apply map_ext. intros row. rewrite !map_map. apply map_ext. intros. symmetry. apply mscale_zero.
  Qed.

  Lemma vflat_unit l : vflat (map (vscale t) l) = sc (vflat l).
  Proof. induction l as [|v l IH]; [reflexivity|]. unfold vflat in *. cbn [map flat_map]. rewrite map_app, IH. reflexivity. Qed.
  Lemma concat_unit rows : concat (map sc rows) = sc (concat rows).
  Proof. symmetry. apply concat_map. Qed.
  Lemma bcast_unit f x y z : (forall u v, f (t * u) (t * v) = t * f u v) -> bcast2 f x y = Ok z -> bcast2 f (sc x) (sc y) = Ok (sc z).
  Proof.
    intros Hf H. unfold bcast2 in *. rewrite !map_length. destruct (Nat.eqb (length x) (length y)).
    - injection H as <-. f_equal. revert y. induction x as [|u x IH]; intros [|v y]; try reflexivity. cbn. rewrite Hf, IH. reflexivity.
    - destruct x as [|x1 [|x2 x]], y as [|y1 [|y2 y]]; try discriminate H; injection H as <-; cbn; rewrite ?map_map, ?Hf; repeat first [reflexivity | apply map_ext; intros; apply Hf | f_equal].
  Qed.

  Lemma equilibrium_unit c V V0 w a a' b gr : Uni a a' ->
    equilibrium c V V0 w a = Ok (b, gr) -> length gr = n /\ exists b', equilibrium (uctx c) V V0 w a' = Ok (b', sc gr) /\ Uni b b'.
  Proof.
    intros HM H. unfold equilibrium in *. apply bind_ok in H. destruct H as ([[a1 u] lam] & H1 & H).
    destruct (prepare_unit _ _ _ _ _ _ _ _ _ HM H1) as (a1' & -> & M1). cbn [bind].
    apply bind_ok in H. destruct H as (a2 & H2 & H). destruct (elem_loop_unit _ _ _ _ _ _ _ _ M1 H2) as (a2' & -> & M2). cbn [bind].
    apply bind_ok in H. destruct H as (s1 & H3 & H). apply bind_ok in H. destruct H as (g & H4 & H). apply bind_ok in H. destruct H as (gred & H5 & H).
    injection H as <- <-. open_uni M2. rewrite HD in H5. pose proof (gather_len _ _ _ H5) as Lg. split; [exact Lg|].
    rewrite Er, Efc, Efo, ED1, HD, vflat_unit, !concat_unit. numR.
    replace (map Ropp (sc (vflat (a_r a2)))) with (sc (map Ropp (vflat (a_r a2)))) by (rewrite !map_map; apply map_ext; intros; ring).
    rewrite (bcast_unit Rplus _ _ _ ltac:(intros; ring) H3). cbn [bind].
    replace (map (Rmult lam) (sc (concat (a_forces a2)))) with (sc (map (Rmult lam) (concat (a_forces a2)))) by (rewrite !map_map; apply map_ext; intros; ring).
    rewrite (bcast_unit Rplus _ _ _ ltac:(intros; ring) H4). cbn [bind].
    rewrite gather_map_ok, H5. cbn [bind]. eexists. split; [reflexivity|]. close_uni.
  Qed.

  (** ** Stiffness *)
  Lemma flat_K_unit K : flat_K (map (map (mscale t)) K) = map sc (flat_K K).
  Proof.
    unfold flat_K. induction K as [|row K IH]; [reflexivity|]. cbn [map flat_map app]. rewrite IH.
    assert (Hr : forall f, (forall M : m3 R, f (mscale t M) = vscale t (f M)) -> flat_map (fun b => vlist (f b)) (map (mscale t) row) = sc (flat_map (fun b => vlist (f b)) row)).
    { intros f Hf. induction row as [|M row IHr]; [reflexivity|]. cbn [map flat_map]. rewrite map_app, <- IHr, Hf. reflexivity. }
    repeat f_equal; apply Hr; reflexivity.
  Qed.

  Lemma select2_unit m M : select2 m D1 = Ok M -> select2 (map sc m) D1 = Ok (map sc M) /\ length M = n /\ Forall (fun r => length r = n) M.
  Proof.
    unfold select2. intros H. apply bind_ok in H. destruct H as (rows & Hr & H). rewrite gather_map_ok, Hr. cbn [bind]. pose proof (gather_len _ _ _ Hr) as Lr.
    assert (G : forall (rws : list (list R)) (acc M : list (list R)), foldM (fun acc row => r <- gather row D1 ;; Ok (acc ++ [r])) rws acc = Ok M -> Forall (fun r => length r = n) acc ->
      length M = (length acc + length rws)%nat /\ Forall (fun r => length r = n) M /\ foldM (fun acc row => r <- gather row D1 ;; Ok (acc ++ [r])) (map sc rws) (map sc acc) = Ok (map sc M)).
    { induction rws as [|row rws IH]; intros acc M0 H0 HF; cbn [foldM map] in *.
      - injection H0 as <-. cbn. auto.
      - apply bind_ok in H0. destruct H0 as (acc1 & H1 & H0). apply bind_ok in H1. destruct H1 as (r & H1 & H2). injection H2 as <-.
        rewrite gather_map_ok, H1. cbn [bind]. pose proof (gather_len _ _ _ H1) as L1.
        destruct (IH (acc ++ [r]) M0 H0 ltac:(apply Forall_app; auto)) as (G1 & G2 & G3). rewrite map_app in G3. cbn [map] in G3.
        split; [rewrite G1, app_length; cbn; lia|]. split; assumption. }
    destruct (G rows [] M H ltac:(constructor)) as (G1 & G2 & G3). cbn in G1, G3. rewrite G3. repeat split; auto. lia.
  Qed.

  Lemma stiffness_unit c U a a' b K : Uni a a' -> stiffness c U a = Ok (b, K) ->
    length K = n /\ Forall (fun r => length r = n) K /\ exists b', stiffness (uctx c) U a' = Ok (b', map sc K) /\ Uni b b'.
  Proof.
    intros HM H. unfold stiffness in *. apply bind_ok in H. destruct H as ([[a1 u] lam] & H1 & H).
    destruct (prepare_unit _ _ _ _ _ _ _ _ _ HM H1) as (a1' & -> & M1). cbn [bind].
    apply bind_ok in H. destruct H as (a2 & H2 & H). destruct (elem_loop_unit _ _ _ _ _ _ _ _ M1 H2) as (a2' & -> & M2). cbn [bind].
    apply bind_ok in H. destruct H as (Kr & H3 & H). injection H as <- <-. open_uni M2. rewrite HD in H3.
    destruct (select2_unit _ _ H3) as (G & L & Fo). rewrite EK, flat_K_unit, ED1, HD, G. cbn [bind]. split; [exact L|]. split; [exact Fo|].
    eexists. split; [reflexivity|]. close_uni.
  Qed.
End Unit.
