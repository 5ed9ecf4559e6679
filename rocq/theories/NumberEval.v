(** * Residual and stiffness of a truss with renumbered nodes and renamed axes *)
From Coq Require Import List ZArith Bool Arith Lia Permutation Reals Lra.
Import ListNotations.
From Verif Require Import Num NumR Vec Handlers Material Analysis Truss Equil Solver Run ListFacts SpecSame SpecNumber PickFacts MirrorFacts.
Local Open Scope R_scope.

Section Vectors.
  Variable ax : v3 nat.
  Hypothesis Hax : axes ax.
  Notation turn := (turn ax).
  Notation turn_block := (turn_block ax).
  Notation turn_row := (turn_row ax).
  Notation comps := (comps ax).

  Ltac ax6 := destruct (axes_cases ax Hax) as [->|[->|[->|[->|[->| ->]]]]].

  Lemma vget_vmap {A B} (f : A -> B) v k : vget (vmap f v) k = f (vget v k).
  Proof. destruct k as [|[|k]]; reflexivity. Qed.
  Lemma vget_vmap2 {A B C} (f : A -> B -> C) v w k : vget (vmap2 f v w) k = f (vget v k) (vget w k).
  Proof. destruct k as [|[|k]]; reflexivity. Qed.
  Lemma turn_vmap {A B} (f : A -> B) v : turn (vmap f v) = vmap f (turn v).
  Proof. unfold SpecNumber.turn. rewrite !vget_vmap. reflexivity. Qed.
  Lemma turn_vmap2 {A B C} (f : A -> B -> C) v w : turn (vmap2 f v w) = vmap2 f (turn v) (turn w).
  Proof. unfold SpecNumber.turn. rewrite !vget_vmap2. reflexivity. Qed.
  Lemma turn_add (v w : v3 R) : turn (vadd v w) = vadd (turn v) (turn w).
  Proof. apply turn_vmap2. Qed.
  Lemma turn_sub (v w : v3 R) : turn (vsub v w) = vsub (turn v) (turn w).
  Proof. apply turn_vmap2. Qed.
  Lemma turn_neg (v : v3 R) : turn (vneg v) = vneg (turn v).
  Proof. apply turn_vmap. Qed.
  Lemma turn_scale s (v : v3 R) : turn (vscale s v) = vscale s (turn v).
  Proof. apply turn_vmap. Qed.
  Lemma turn_divs (v : v3 R) s : turn (vdivs v s) = vdivs (turn v) s.
  Proof. apply turn_vmap. Qed.
  Lemma turn_zero : turn (vzero (F := R)) = vzero.
  Proof. ax6; reflexivity. Qed.
  Lemma turn_dot (v w : v3 R) : vdot (turn v) (turn w) = vdot v w.
  Proof. unfold vdot. destruct v, w. numR. ax6; cbn; ring. Qed.
  Lemma tblock_zero : turn_block (mzero (F := R)) = mzero.
  Proof. ax6; reflexivity. Qed.
  Lemma tblock_add M N : turn_block (madd M N) = madd (turn_block M) (turn_block N).
  Proof. destruct M as [[] [] []], N as [[] [] []]. ax6; reflexivity. Qed.
  Lemma tblock_neg M : turn_block (mneg M) = mneg (turn_block M).
  Proof. destruct M as [[] [] []]. ax6; reflexivity. Qed.

  Definition turn_q (q : truss_q (F:=R)) : truss_q :=
    TrussQ (turn (q_n q)) (q_L q) (q_l q) (q_lam q) (q_stress q) (q_dsde q) (q_A q) (q_N q) (q_state q).
  Lemma quantities_turn XA XE UA UE U0A U0E u mat geo sve q :
    truss_quantities XA XE UA UE U0A U0E u mat geo sve = Ok q ->
    truss_quantities (turn XA) (turn XE) (turn UA) (turn UE) (turn U0A) (turn U0E) u mat geo sve = Ok (turn_q q).
  Proof.
    unfold truss_quantities, vnorm. cbv zeta. rewrite <- !turn_sub, <- !turn_add, !turn_dot, <- turn_divs.
    intros H. apply bind_ok in H. destruct H as ([[s t] st] & -> & H). cbn [bind].
    apply bind_ok in H. destruct H as (A & -> & H). injection H as <-. reflexivity.
  Qed.
  Lemma KTEE_turn q : truss_KTEE (turn_q q) = turn_block (truss_KTEE q).
  Proof.
    unfold truss_KTEE. cbn [turn_q q_n q_L q_l q_dsde q_A q_N]. destruct (q_n q) as [x y z].
    set (a := (_ / _)%num). set (b := (q_N q / q_l q)%num). ax6; reflexivity.
  Qed.

  Definition pickK (sg : list nat) (K : list (list (m3 R))) := map (fun row => map turn_block (pick sg row)) (pick sg K).
  Definition squareK (n : nat) (K : list (list (m3 R))) : Prop := length K = n /\ Forall (fun r => length r = n) K.

  Lemma squareK_row n K i row : squareK n K -> nth_error K i = Some row -> length row = n.
  Proof. intros [_ H] Hi. rewrite Forall_forall in H. apply H. eapply nth_error_In, Hi. Qed.

  Lemma K_add_turn n sg K i j i' j' M K1 : order n sg -> squareK n K -> nth_error sg i' = Some i -> nth_error sg j' = Some j ->
    K_add K i j M = Ok K1 -> K_add (pickK sg K) i' j' (turn_block M) = Ok (pickK sg K1) /\ squareK n K1.
  Proof.
    intros Hs HK Hi Hj H. pose proof (order_within _ _ Hs) as W. pose proof (order_NoDup _ _ Hs) as ND. unfold K_add in *.
    destruct (nth_error K i) as [row|] eqn:E1; [|discriminate]. destruct (nth_error row j) as [blk|] eqn:E2; [|discriminate]. injection H as <-.
    assert (W1 : within (length K) sg) by (rewrite (proj1 HK); exact W). assert (Lr : length row = n) by (eapply squareK_row; eauto).
    assert (W2 : within (length row) sg) by (rewrite Lr; exact W).
    unfold pickK. rewrite nth_error_map, nth_pick, Hi, E1 by exact W1. cbn [option_map]. rewrite nth_error_map, nth_pick, Hj, E2 by exact W2. cbn [option_map]. split.
    - f_equal. rewrite (pick_set_nth _ _ _ _ _ W1 ND Hi), <- set_nth_map. f_equal. rewrite <- tblock_add, set_nth_map. f_equal. symmetry. apply pick_set_nth; assumption.
    - destruct HK as [L F]. split; [rewrite set_nth_length; exact L|]. apply Forall_forall. intros r Hr. apply In_nth_error in Hr. destruct Hr as [k Hk].
      rewrite nth_error_set_nth in Hk. destruct (_ && _)%bool; [injection Hk as <-; rewrite set_nth_length; exact Lr|]. rewrite Forall_forall in F. apply F. eapply nth_error_In, Hk.
  Qed.
End Vectors.

Section Eval.
  Variable ax : v3 nat.
  Hypothesis Hax : axes ax.
  Notation turn := (turn ax).
  Notation turn_block := (turn_block ax).
  Notation turn_row := (turn_row ax).
  Notation comps := (comps ax).
  Variable rho : Z -> Z.
  Variable labels : list Z.
  Notation nn := (length labels).
  Hypothesis Hlab : NoDup labels.
  Hypothesis Hrho : forall a b, In a labels -> In b labels -> rho a = rho b -> a = b.
  Variable sg p : list nat.
  Hypothesis Hsg : order nn sg.
  Variable D1 D1' : list nat.
  Notation n := (length D1).
  Notation P := (p ++ [n]).
  Hypothesis Hu : unknown_order ax sg p D1 D1'.
  Hypothesis HN1 : NoDup D1.
  Hypothesis HW1 : within (3 * nn) D1'.
  Hypothesis HL1 : length D1' = n.

  Definition rows_ok (l : list (list R)) : Prop :=
    l = [] \/ (length l = nn /\ exists w, (w mod 3 = 0)%nat /\ Forall (fun r => length r = w) l).
  Definition sizes (a : analysis R) : Prop :=
    length (a_U a) = nn /\ length (a_U0 a) = nn /\ length (a_r a) = nn /\ squareK nn (a_K a) /\
    rows_ok (a_fconst a) /\ rows_ok (a_forces a) /\ length (a_Ured a) = n /\ (a_Vred a = [] \/ length (a_Vred a) = S n).

  Definition Sim (a a' : analysis R) : Prop :=
    a_DOF1 a = D1 /\ a_DOF1 a' = D1' /\ sizes a /\ renumbered_result ax sg p a a'.

  Definition nctx (c : ctx R) : ctx R :=
    Ctx (map rho (pick sg (c_labels c))) (map turn (pick sg (c_coords c))) (renamed_elems rho (c_elems c)) (c_nnodes c) (c_ndof1 c) (c_nstatev c).

  Lemma Wsg : within nn sg.
  Proof. apply order_within, Hsg. Qed.
  Lemma Lp : length p = n.
  Proof. apply order_length, Hu. Qed.
  Lemma Wp : within n p.
  Proof. apply order_within, Hu. Qed.
  Lemma pickP_n {A} (x : list A) : length x = n -> pick P x = pick p x.
  Proof. intros H. apply pick_front; [apply Wp|lia]. Qed.
  Lemma pickP_snoc {A} (u : list A) l : length u = n -> pick P (u ++ [l]) = pick p u ++ [l].
  Proof. intros H. apply pick_snoc; [apply Wp|exact H]. Qed.

  (** Where a node is. *)
  Lemma node_place (c : ctx R) x {A} (arr : list A) i0 : c_labels c = labels -> node_row c arr x = Ok i0 ->
    exists i i', nth_error labels i = Some x /\ nth_error sg i' = Some i /\ nth_error arr i = Some i0 /\ positions x labels = [i] /\
      positions (rho x) (map rho (pick sg labels)) = [i'].
  Proof.
    intros Hc H. unfold node_row in H. rewrite Hc in H. apply gather0_ok in H. destruct H as (i & ix & E & Hi).
    assert (Hn : nth_error labels i = Some x) by (apply positions_In; rewrite E; left; reflexivity).
    assert (Hlt : (i < nn)%nat) by (apply nth_error_Some; congruence).
    destruct (order_at _ _ _ Hsg Hlt) as [i' Hi']. exists i, i'. repeat (split; [assumption|]). split; [apply positions_NoDup; assumption|].
    apply positions_NoDup.
    - apply (NoDup_map_inv (fun x => x)). rewrite map_id. 
      assert (G : forall l, NoDup l -> (forall a, In a l -> In a labels) -> NoDup (map rho l)).
      { induction 1 as [|a l Hn0 Hd IH]; intros Hin; cbn [map]; constructor.
        - intros Hx. apply in_map_iff in Hx. destruct Hx as (b & Eb & Hb). apply Hn0. rewrite <- (Hrho b a); auto; [apply Hin; right; exact Hb|apply Hin; left; reflexivity].
        - apply IH. intros b Hb. apply Hin. right. exact Hb. }
      apply G; [eapply Permutation_NoDup; [apply Permutation_sym, pick_perm, Hsg|exact Hlab]|]. intros a. apply Permutation_in, pick_perm, Hsg.
    - rewrite nth_error_map, nth_pick, Hi', Hn by exact Wsg. reflexivity.
  Qed.

  Lemma row_turn x (arr : list (v3 R)) v i i' : length arr = nn -> nth_error sg i' = Some i -> nth_error arr i = Some v ->
    positions (rho x) (map rho (pick sg labels)) = [i'] ->
    gather0 (map turn (pick sg arr)) (positions (rho x) (map rho (pick sg labels))) = Ok (turn v).
  Proof.
    intros Hl Hi Hv ->. apply gather0_one. rewrite nth_error_map, nth_pick, Hi, Hv by (rewrite Hl; exact Wsg). reflexivity.
  Qed.

  Ltac open_sim HM := destruct HM as (?HD & ?HD' & (?LU & ?LU0 & ?Lr & ?LK & ?Rc & ?Rf & ?LUr & ?LVr) &
    ?Estep & ?EU & ?EU0 & ?Er & ?Eg & ?EK & ?Estr & ?Efrc & ?Ests & ?Est & ?Elpf & ?EdV & ?Ej & ?EuO & ?ED0 & ?EUr & ?EVr & ?Ef0 & ?EKr & ?Efc & ?Efo).
  Ltac simp_an :=
    cbn [a_step a_U a_U0 a_r a_g a_K a_stretch a_force a_stress a_DOF0 a_DOF1 a_Ured a_Vred a_lpf a_state a_dVmax a_j a_Kred a_Kmod a_f0red a_fconst a_forces
         set_step set_U set_U0 set_r set_g set_K set_stretch set_force set_stress set_Ured set_Vred set_lpf set_state set_dVmax set_j set_Kred set_Kmod set_f0red set_fconst set_forces].
  Ltac close_sim := split; [assumption|]; split; [assumption|]; split;
    [unfold sizes; simp_an; repeat (split; [first [assumption|idtac]|]); try assumption|];
    unfold renumbered_result; simp_an;
    repeat (split; [first [assumption|reflexivity|congruence|idtac]|]); try first [assumption|reflexivity|congruence].

  Lemma truss_number e NA NE XA XE UA UE U0A U0E rA rE el st sv mat geo u iA iA' iE iE' a a' b sv' : Sim a a' ->
    nth_error sg iA' = Some iA -> nth_error sg iE' = Some iE ->
    positions NA labels = [iA] -> positions NE labels = [iE] ->
    positions (rho NA) (map rho (pick sg labels)) = [iA'] -> positions (rho NE) (map rho (pick sg labels)) = [iE'] ->
    truss e NA NE XA XE UA UE U0A U0E rA rE labels el st sv mat geo u a = Ok (b, sv') ->
    exists b', truss e (rho NA) (rho NE) (turn XA) (turn XE) (turn UA) (turn UE) (turn U0A) (turn U0E) (turn rA) (turn rE) (map rho (pick sg labels)) el st sv mat geo u a' = Ok (b', sv') /\ Sim b b'.
  Proof.
    intros HM SA SE PA PE PA' PE' H. unfold truss, first_pos in *. cbv zeta in *. rewrite PA, PE in H. rewrite PA', PE'.
    pose proof (order_NoDup _ _ Hsg) as ND. pose proof Wsg as W.
    assert (lA' : (iA' < length sg)%nat) by (apply nth_error_Some; congruence). assert (lE' : (iE' < length sg)%nat) by (apply nth_error_Some; congruence).
    assert (lA : (iA < nn)%nat). { unfold within in W. rewrite Forall_forall in W. apply W. eapply nth_error_In, SA. }
    assert (lE : (iE < nn)%nat). { unfold within in W. rewrite Forall_forall in W. apply W. eapply nth_error_In, SE. }
    apply bind_ok in H. destruct H as (sve & -> & H). cbn [bind].
    apply bind_ok in H. destruct H as (q & Hq & H). rewrite (quantities_turn ax Hax _ _ _ _ _ _ _ _ _ _ _ Hq). cbn [bind].
    open_sim HM. destruct st.
    - apply bind_ok in H. destruct H as (str & H1 & H). apply bind_ok in H. destruct H as (sts & H2 & H). apply bind_ok in H. destruct H as (frc & H3 & H).
      apply bind_ok in H. destruct H as (sv2 & H4 & H). apply bind_ok in H. destruct H as (r1 & H5 & H). apply bind_ok in H. destruct H as (r2 & H6 & H).
      injection H as <- <-. cbn [turn_q q_n q_L q_l q_lam q_stress q_dsde q_A q_N q_state].
      rewrite Estr, Efrc, Ests, H1, H2, H3. cbn [bind].
      match goal with |- context [bind ?x _] => replace x with (Ok sv2) by (symmetry; exact H4) end. cbn [bind].
      rewrite put_one in H5 by lia. injection H5 as <-. rewrite put_one in H6 by (rewrite set_nth_length; lia). injection H6 as <-.
      rewrite Er, <- turn_neg, <- !turn_scale, <- !turn_add.
      assert (Lps : length (pick sg (a_r a)) = length sg) by (apply pick_length; rewrite Lr; exact W).
      rewrite put_one by (rewrite map_length; lia). cbn [bind]. rewrite put_one by (rewrite set_nth_length, map_length; lia). cbn [bind].
      eexists. split; [reflexivity|]. close_sim; [rewrite !set_nth_length; assumption|].
      rewrite !set_nth_map. f_equal. rewrite (pick_set_nth sg _ iE' iE) by (rewrite ?set_nth_length, ?Lr; assumption). f_equal. symmetry. apply pick_set_nth; [rewrite Lr|..]; assumption.
    - cbn [bind] in *. rewrite KTEE_turn, EK, <- tblock_neg by exact Hax. fold (pickK ax sg (a_K a)).
      apply bind_ok in H. destruct H as (K1 & H1 & H). destruct (K_add_turn ax Hax _ _ _ _ _ _ _ _ _ Hsg LK SA SA H1) as [-> Q1]. cbn [bind].
      apply bind_ok in H. destruct H as (K2 & H2 & H). destruct (K_add_turn ax Hax _ _ _ _ _ _ _ _ _ Hsg Q1 SA SE H2) as [-> Q2]. cbn [bind].
      apply bind_ok in H. destruct H as (K3 & H3 & H). destruct (K_add_turn ax Hax _ _ _ _ _ _ _ _ _ Hsg Q2 SE SA H3) as [-> Q3]. cbn [bind].
      apply bind_ok in H. destruct H as (K4 & H4 & H). destruct (K_add_turn ax Hax _ _ _ _ _ _ _ _ _ Hsg Q3 SE SE H4) as [-> Q4]. cbn [bind].
      injection H as <- <-. eexists. split; [reflexivity|]. close_sim.
  Qed.

  Lemma elem_step_number c st Ured lpf w a a' u e b u1 : c_labels c = labels -> length (c_coords c) = nn -> length Ured = n -> Sim a a' ->
    elem_step c st Ured lpf w (a, u) e = Ok (b, u1) ->
    exists b', elem_step (nctx c) st (pick p Ured) lpf w (a', u) e = Ok (b', u1) /\ Sim b b'.
  Proof.
    intros Hc Hco HlU HM H. unfold elem_step in *. cbv zeta in *. cbn [fst snd] in *.
    apply bind_ok in H. destruct H as ([NA NE] & Hn & H).
    assert (Hn' : get_nodes (c_elems (nctx c)) e = Ok (rho NA, rho NE)).
    { unfold get_nodes in *. cbn [nctx c_elems renamed_elems el_conns el_labels]. apply (gather0_map (fun c => (rho (fst c), rho (snd c))) _ _ _ Hn). }
    rewrite Hn'. cbn [bind].
    apply bind_ok in H. destruct H as (mat & Hm & H). change (get_material_properties (c_elems (nctx c)) e) with (get_material_properties (c_elems c) e). rewrite Hm. cbn [bind].
    apply bind_ok in H. destruct H as (geo & Hg & H). change (get_geometric_properties (c_elems (nctx c)) e) with (get_geometric_properties (c_elems c) e). rewrite Hg. cbn [bind].
    change (get_material_type (c_elems (nctx c)) e) with (get_material_type (c_elems c) e).
    change (el_labels (c_elems (nctx c))) with (el_labels (c_elems c)). change (c_nstatev (nctx c)) with (c_nstatev c). 
    change (c_labels (nctx c)) with (map rho (pick sg (c_labels c))).
    pose proof HM as HM0. open_sim HM0.
    apply bind_ok in H. destruct H as (XA & H1 & H). destruct (node_place _ _ _ _ Hc H1) as (iA & iA' & LA & SA & VA & PA & PA').
    apply bind_ok in H. destruct H as (XE & H2 & H). destruct (node_place _ _ _ _ Hc H2) as (iE & iE' & LE & SE & VE & PE & PE').
    unfold node_row in *. cbn [nctx c_labels c_coords]. rewrite Hc in *. rewrite PA, PE in H. rewrite EU, EU0, Er, Est.
    rewrite (row_turn _ _ _ _ _ Hco SA VA PA'). cbn [bind]. rewrite (row_turn _ _ _ _ _ Hco SE VE PE'). cbn [bind].
    assert (G1 : forall (arr : list (v3 R)) i v, gather0 arr [i] = Ok v -> nth_error arr i = Some v).
    { intros arr i v Hv. apply gather0_ok in Hv. destruct Hv as (i1 & ix & E & Hv). injection E as <- <-. exact Hv. }
    apply bind_ok in H. destruct H as (UA & H3 & H). apply G1 in H3. rewrite (row_turn _ _ _ _ _ LU SA H3 PA'). cbn [bind].
    apply bind_ok in H. destruct H as (UE & H4 & H). apply G1 in H4. rewrite (row_turn _ _ _ _ _ LU SE H4 PE'). cbn [bind].
    apply bind_ok in H. destruct H as (U0A & H5 & H). apply G1 in H5. rewrite (row_turn _ _ _ _ _ LU0 SA H5 PA'). cbn [bind].
    apply bind_ok in H. destruct H as (U0E & H6 & H). apply G1 in H6. rewrite (row_turn _ _ _ _ _ LU0 SE H6 PE'). cbn [bind].
    apply bind_ok in H. destruct H as (sv & -> & H). cbn [bind].
    apply bind_ok in H. destruct H as (rA & H7 & H). apply G1 in H7. rewrite (row_turn _ _ _ _ _ Lr SA H7 PA'). cbn [bind].
    apply bind_ok in H. destruct H as (rE & H8 & H). apply G1 in H8. rewrite (row_turn _ _ _ _ _ Lr SE H8 PE'). cbn [bind].
    apply bind_ok in H. destruct H as (mt & -> & H). cbn [bind]. destruct (select_umat u mt) as [um|]; [|discriminate].
    apply bind_ok in H. destruct H as ([a1 sv'] & Ht & H).
    destruct (truss_number _ _ _ _ _ _ _ _ _ _ _ _ _ _ _ _ _ _ _ _ _ _ _ _ _ HM SA SE PA PE PA' PE' Ht) as (b1 & -> & M1). cbn [bind].
    injection H as <- <-. eexists. split; [reflexivity|]. destruct (w && _)%bool; [|exact M1].
    clear - HlU M1 Hu. open_sim M1. close_sim; [right; rewrite app_length; cbn; lia|].
    rewrite (order_length _ _ (proj1 Hu)). symmetry. apply pickP_snoc, HlU.
  Qed.

  Lemma elem_loop_number c st Ured lpf w a a' b : c_labels c = labels -> length (c_coords c) = nn -> length Ured = n -> Sim a a' -> elem_loop c st Ured lpf w a = Ok b ->
    exists b', elem_loop (nctx c) st (pick p Ured) lpf w a' = Ok b' /\ Sim b b'.
  Proof.
    intros Hc Hco HlU HM H. unfold elem_loop in *. apply bind_ok in H. destruct H as ([b0 u0] & H & Hb). injection Hb as <-. cbn [fst].
    change (el_labels (c_elems (nctx c))) with (el_labels (c_elems c)). generalize dependent (@None umat_id). intros u.
    revert u a a' HM. induction (el_labels (c_elems c)) as [|e l IH]; intros u a a' HM H; cbn [foldM] in *.
    - injection H as <- <-. eexists. split; [reflexivity|exact HM].
    - apply bind_ok in H. destruct H as ([a1 u1] & H1 & H). destruct (elem_step_number _ _ _ _ _ _ _ _ _ _ _ Hc Hco HlU HM H1) as (a1' & -> & M1). cbn [bind].
      apply (IH _ _ _ M1 H).
  Qed.

  (** [V] is a displacement vector, or one with the load factor appended. *)
  Lemma prepare_number c st V V0 a a' b u lam : c_ndof1 c = n -> (length V = n \/ length V = S n) -> (length V = length V0)%nat -> Sim a a' ->
    equil_prepare c st V V0 a = Ok (b, u, lam) ->
    length u = n /\ exists b', equil_prepare (nctx c) st (pick P V) (pick P V0) a' = Ok (b', pick p u, lam) /\ Sim b b'.
  Proof.
    intros Hn HV HV0 HM H. unfold equil_prepare in *. cbv zeta in *. cbn [nctx c_ndof1]. rewrite Hn in *.
    assert (LV : length (pick P V) = length V).
    { destruct HV as [E|E]; [rewrite pickP_n, pick_length, Lp by (rewrite ?E; auto; apply Wp); auto|].
      destruct (exists_last (l := V)) as (w & l & ->); [intros ->; discriminate|]. rewrite app_length in E. cbn in E.
      rewrite pickP_snoc, !app_length, pick_length, Lp by (try lia; replace (length w) with n by lia; apply Wp). cbn. lia. }
    rewrite LV. set (ext := Nat.ltb n (length V)) in *.
    assert (Hsp : forall W : list R, length W = length V -> exists (w : list R) (l : R), length w = n /\ (if ext then firstn n W else W) = w /\
      (if ext then firstn n (pick P W) else pick P W) = pick p w /\ (ext = true -> W = w ++ [l])).
    { intros W HW. unfold ext. destruct (Nat.ltb_spec n (length V)) as [Hlt|Hge].
      - assert (HW' : length W = S n) by lia. destruct (exists_last (l := W)) as (w & l & ->); [intros ->; discriminate|].
        rewrite app_length in HW'. cbn in HW'. assert (Hw : length w = n) by lia. exists w, l. split; [exact Hw|].
        assert (Lpw : length (pick p w) = n) by (rewrite pick_length, Lp by (rewrite Hw; apply Wp); auto).
        rewrite pickP_snoc by exact Hw. rewrite !firstn_app, Lpw, Hw, Nat.sub_diag, !firstn_O, !app_nil_r.
        rewrite <- Hw at 1. rewrite (firstn_all w). split; [reflexivity|]. split; [|reflexivity].
        rewrite <- Lpw at 1. apply firstn_all.
      - exists W, 0. split; [lia|]. split; [reflexivity|]. split; [apply pickP_n; lia|discriminate]. }
    destruct (Hsp V eq_refl) as (w & l & Lw & E1 & E2 & E3). destruct (Hsp V0 (eq_sym HV0)) as (w0 & l0 & Lw0 & E4 & E5 & _).
    rewrite E1, E4 in H. rewrite E2, E5.
    assert (El : (if ext then last (pick P V) f0 else a_lpf a') = (if ext then last V f0 else a_lpf a)).
    { destruct ext; [|apply HM]. rewrite (E3 eq_refl). rewrite pickP_snoc by exact Lw. rewrite !last_snoc. reflexivity. }
    rewrite El. clear El. apply bind_ok in H. destruct H as (U & HU & H). apply bind_ok in H. destruct H as (U0 & HU0 & H). injection H as <- <- <-.
    split; [exact Lw|]. open_sim HM.
    assert (S1 : forall A (x : list (v3 R)) (y : list R), length x = nn -> length y = n -> scatter x D1 y = Ok A -> scatter (map turn (pick sg x)) D1' (pick p y) = Ok (map turn (pick sg A))).
    { intros A x y Hx Hy Hs. apply (scatter_turn ax Hax nn sg p D1 D1' x y A); assumption. }
    destruct st; cbn [a_U a_U0 a_DOF1 set_r set_K] in *; rewrite HD in *; rewrite EU, EU0, HD', ?Er, ?EK;
      rewrite (S1 _ _ _ LU Lw HU); cbn [bind]; rewrite (S1 _ _ _ LU0 Lw0 HU0); cbn [bind]; (eexists; split; [reflexivity|]); close_sim;
      try (rewrite (scatter_length _ _ _ _ HU); assumption); try (rewrite (scatter_length _ _ _ _ HU0); assumption).
    - rewrite map_length. exact Lr.
    - rewrite pick_map, !map_map. apply map_ext. intros. symmetry. apply turn_zero, Hax.
    - rewrite map_length. apply LK.
    - destruct LK as [L F]. apply Forall_map. eapply Forall_impl; [|exact F]. intros r Hr. cbn beta in *. rewrite map_length. exact Hr.
    - rewrite pick_map, !map_map. apply map_ext. intros row. rewrite pick_map, !map_map. apply map_ext. intros. symmetry. apply tblock_zero, Hax.
  Qed.

  Lemma concat_const (l : list (list R)) w : Forall (fun r => length r = w) l -> length (concat l) = (w * length l)%nat.
  Proof. induction 1 as [|r l Hr H IH]; cbn; [lia|]. rewrite app_length, IH. lia. Qed.
  Lemma load_shape (f : R -> R -> R) (x : list R) (h : R -> R) l (s : list R) : length x = (3 * nn)%nat -> rows_ok l -> bcast2 f x (map h (concat l)) = Ok s ->
    Forall (fun r => length r = 3%nat) l /\ length (concat l) = (3 * nn)%nat /\ s = map2 f x (map h (concat l)).
  Proof.
    intros Hx Hl H.
    assert (E : length x = length (map h (concat l)) \/ length (map h (concat l)) = 1%nat).
    { unfold bcast2 in H. destruct (Nat.eqb_spec (length x) (length (map h (concat l)))) as [E|E]; [auto|]. 
      destruct x as [|x1 [|x2 x]]; destruct (map h (concat l)) as [|y1 [|y2 y]]; cbn in *; try discriminate; try lia; auto. }
    rewrite map_length in E. destruct Hl as [->|(L & w & Hw & F)].
    - cbn in E. split; [constructor|]. assert (nn = 0)%nat by lia. split; [cbn; lia|]. rewrite bcast2_same in H by (cbn; lia). injection H as <-. reflexivity.
    - rewrite (concat_const _ _ F), L in E. assert (E1 : (3 * nn = w * nn)%nat).
      { destruct E as [E|E]; [lia|]. apply Nat.mul_eq_1 in E. destruct E as [-> _]. discriminate. }
      assert (E2 : length x = length (map h (concat l))) by (rewrite map_length, (concat_const _ _ F), L; lia).
      rewrite bcast2_same in H by exact E2. injection H as <-. split; [|split; [rewrite (concat_const _ _ F), L; lia|reflexivity]].
      destruct labels as [|l0 ls] eqn:El; [destruct l; [constructor|discriminate L]|]. rewrite <- El in *. assert (w = 3)%nat; [|subst; exact F].
      assert (0 < nn)%nat by (rewrite El; cbn; lia). nia.
  Qed.

  Lemma equilibrium_number c V V0 w a a' b gr : c_labels c = labels -> length (c_coords c) = nn -> c_ndof1 c = n -> length V = S n -> length V0 = S n -> Sim a a' ->
    equilibrium c V V0 w a = Ok (b, gr) ->
    length gr = n /\ exists b', equilibrium (nctx c) (pick P V) (pick P V0) w a' = Ok (b', pick p gr) /\ Sim b b'.
  Proof.
    intros Hc Hco Hn HV HV0 HM H. unfold equilibrium in *. apply bind_ok in H. destruct H as ([[a1 u] lam] & H1 & H).
    destruct (prepare_number _ _ _ _ _ _ _ _ _ Hn (or_intror HV) (eq_trans HV (eq_sym HV0)) HM H1) as (Lu & a1' & -> & M1). cbn [bind].
    apply bind_ok in H. destruct H as (a2 & H2 & H). destruct (elem_loop_number _ _ _ _ _ _ _ _ Hc Hco Lu M1 H2) as (a2' & -> & M2). cbn [bind].
    apply bind_ok in H. destruct H as (s1 & H3 & H). apply bind_ok in H. destruct H as (g & H4 & H). apply bind_ok in H. destruct H as (gred & H5 & H).
    injection H as <- <-. open_sim M2. rewrite HD in H5.
    assert (Lx : length (map Ropp (vflat (a_r a2))) = (3 * nn)%nat) by (rewrite map_length, vflat_length, Lr; lia).
    numR. rewrite <- (map_id (concat (a_fconst a2))) in H3. destruct (load_shape Rplus _ (fun x => x) _ _ Lx Rc H3) as (F1 & L1 & ->). rewrite map_id in H4.
    assert (Ls : length (map2 Rplus (map Ropp (vflat (a_r a2))) (concat (a_fconst a2))) = (3 * nn)%nat) by (rewrite map2_length; lia).
    destruct (load_shape Rplus _ (Rmult lam) _ _ Ls Rf H4) as (F2 & L2 & ->).
    assert (Lm : length (map (Rmult lam) (concat (a_forces a2))) = (3 * nn)%nat) by (rewrite map_length; exact L2).
    pose proof (comps_order ax Hax _ _ Hsg) as Hcm. pose proof (order_within _ _ Hcm) as Wc.
    rewrite Er, Efc, Efo, HD', (vflat_turn ax Hax), !(concat_turn ax Hax) by assumption. rewrite <- !pick_map.
    rewrite bcast2_same by (rewrite !pick_length by (rewrite ?Lx, ?L1; exact Wc); reflexivity). cbn [bind].
    rewrite <- pick_map2 by lia. rewrite bcast2_same by (rewrite !pick_length by (rewrite ?Ls, ?Lm; exact Wc); reflexivity). cbn [bind].
    rewrite <- pick_map2 by lia.
    assert (Lg : length (map2 Rplus (map2 Rplus (map Ropp (vflat (a_r a2))) (concat (a_fconst a2))) (map (Rmult lam) (concat (a_forces a2)))) = (3 * nn)%nat) by (rewrite map2_length; lia).
    rewrite (gather_turn ax Hax nn sg p D1 D1' _ _ Hsg Hu HW1 Lg H5). cbn [bind].
    apply gather_len in H5. split; [exact H5|]. eexists. split; [reflexivity|]. close_sim.
  Qed.

  (** ** Stiffness *)
  Lemma select2_pick (M : list (list R)) (D : list nat) N : select2 M D = Ok N <->
    within (length M) D /\ Forall (fun r => within (length r) D) (pick D M) /\ N = map (pick D) (pick D M).
  Proof.
    unfold select2.
    assert (G : forall (l : list (list R)) acc N, foldM (fun acc row => r <- gather row D ;; Ok (acc ++ [r])) l acc = Ok N <->
      Forall (fun r => within (length r) D) l /\ N = acc ++ map (pick D) l).
    { induction l as [|r l IH]; intros acc N0; cbn [foldM map].
      - rewrite app_nil_r. split; [intros H; injection H as <-; auto|intros [_ ->]; reflexivity].
      - split.
        + intros H. apply bind_ok in H. destruct H as (x & H1 & H). apply bind_ok in H1. destruct H1 as (y & H1 & H2). injection H2 as <-.
          apply gather_pick in H1. destruct H1 as [W ->]. apply IH in H. destruct H as [F ->]. split; [constructor; assumption|]. rewrite <- app_assoc. reflexivity.
        + intros [F ->]. inversion F; subst. rewrite (proj2 (gather_pick r D (pick D r))) by auto. cbn [bind]. apply IH. split; [assumption|]. rewrite <- app_assoc. reflexivity. }
    split.
    - intros H. apply bind_ok in H. destruct H as (rows & H1 & H). apply gather_pick in H1. destruct H1 as [W ->]. apply G in H. destruct H as [F ->]. auto.
    - intros (W & F & ->). rewrite (proj2 (gather_pick M D (pick D M))) by auto. cbn [bind]. apply G. auto.
  Qed.

  Lemma kr_length k row : length row = k -> forall r, In r (vlist (kr row)) -> length r = (3 * k)%nat.
  Proof. intros H r [<-|[<-|[<-|[]]]]; cbn [kr vx vy vz]; rewrite vflat_length, map_length; rewrite <- H; reflexivity. Qed.
  Lemma flat_K_shape k K : squareK k K -> length (flat_K K) = (3 * k)%nat /\ Forall (fun r => length r = (3 * k)%nat) (flat_K K).
  Proof.
    intros [L F]. rewrite flat_K_vflat. split; [rewrite vflat_length, map_length, L; lia|]. apply Forall_forall. intros r Hr. unfold vflat in Hr.
    apply in_flat_map in Hr. destruct Hr as (v & Hv & Hr). apply in_map_iff in Hv. destruct Hv as (row & <- & Hrow). rewrite Forall_forall in F. eapply kr_length; [apply F, Hrow|exact Hr].
  Qed.

  Lemma select2_number K M : squareK nn K -> select2 (flat_K K) D1 = Ok M ->
    select2 (flat_K (pickK ax sg K)) D1' = Ok (map (pick p) (pick p M)) /\ length M = n /\ Forall (fun r => length r = n) M.
  Proof.
    intros HK H. apply select2_pick in H. destruct H as (W & F & ->). unfold pickK. rewrite (flat_K_turn ax Hax).
    destruct (flat_K_shape _ _ HK) as [LF FF]. set (M := flat_K K) in *. clearbody M.
    pose proof (comps_order ax Hax _ _ Hsg) as Hcm. pose proof (order_within _ _ Hcm) as Wc. destruct Hu as [Hp Hd].
    assert (WD : forall r : list R, length r = (3 * nn)%nat -> pick D1' (pick (comps sg) r) = pick p (pick D1 r)).
    { intros r Hr. rewrite !pick_pick; [rewrite Hd; reflexivity| |rewrite Hr; exact Wc]. rewrite Hr. rewrite LF in W. exact W. }
    split; [|split].
    - apply select2_pick. split; [|split].
      + rewrite map_length, pick_length, (order_length _ _ Hcm) by (rewrite LF; exact Wc). exact HW1.
      + rewrite pick_map. apply Forall_map. apply pick_Forall, pick_Forall. eapply Forall_impl; [|exact FF]. intros r Hr. cbn beta in *.
        rewrite pick_length, (order_length _ _ Hcm) by (rewrite Hr; exact Wc). exact HW1.
      + rewrite !pick_map, (pick_pick (comps sg) D1' M) by (rewrite LF; exact Wc). rewrite Hd, <- (pick_pick D1 p M) by exact W. rewrite !map_map.
        apply map_ext_in. intros r Hr. symmetry. apply WD. rewrite Forall_forall in FF. apply FF.
        assert (G : forall q (l : list (list R)) x, In x (pick q l) -> In x l).
        { intros q l x Hx. unfold pick in Hx. apply in_flat_map in Hx. destruct Hx as (i & _ & Hx). destruct (nth_error l i) eqn:E; [|contradiction]. destruct Hx as [<-|[]]. eapply nth_error_In, E. }
        eapply G, G, Hr.
    - rewrite map_length. apply pick_length, W.
    - apply Forall_map. eapply Forall_impl; [|exact F]. intros r Hr. apply pick_length, Hr.
  Qed.

  Lemma stiffness_number c U a a' b K : c_labels c = labels -> length (c_coords c) = nn -> c_ndof1 c = n -> length U = n -> Sim a a' -> stiffness c U a = Ok (b, K) ->
    length K = n /\ Forall (fun r => length r = n) K /\ exists b', stiffness (nctx c) (pick p U) a' = Ok (b', map (pick p) (pick p K)) /\ Sim b b'.
  Proof.
    intros Hc Hco Hn HU HM H. unfold stiffness in *. apply bind_ok in H. destruct H as ([[a1 u] lam] & H1 & H).
    destruct (prepare_number _ _ _ _ _ _ _ _ _ Hn (or_introl HU) eq_refl HM H1) as (Lu & a1' & Hp & M1). rewrite pickP_n in Hp by exact HU. rewrite Hp. cbn [bind].
    apply bind_ok in H. destruct H as (a2 & H2 & H). destruct (elem_loop_number _ _ _ _ _ _ _ _ Hc Hco Lu M1 H2) as (a2' & -> & M2). cbn [bind].
    apply bind_ok in H. destruct H as (Kr & H3 & H). injection H as <- <-. open_sim M2. rewrite HD in H3.
    destruct (select2_number _ _ LK H3) as (G & L & Fo). rewrite EK, HD'. fold (pickK ax sg (a_K a2)). rewrite G. cbn [bind]. split; [exact L|]. split; [exact Fo|].
    eexists. split; [reflexivity|]. close_sim.
  Qed.
End Eval.
