(** * C66: the numbering of the nodes and the naming of the axes do not matter *)
From Coq Require Import List ZArith Bool Arith Lia Permutation Reals Lra.
Import ListNotations.
From Verif Require Import Num NumR Vec Handlers Material Analysis Truss Equil Solver Run NumFix ListFacts SpecMech SpecBuild SpecRun SpecSame SpecNumber
  NumberEval NumberPath NumberRun NumberBuild NumberSolve EditFacts SpecNewton SpecBar PropBar.
Local Open Scope R_scope.

(** Whole sessions, any sequence of runs and changes of settings with a locked control
    component. *)
Theorem C66_renumbered : forall ax rho argsortZ argsortF solve m m' ns ns' bs bs' fs fs' m0,
  axes ax -> argsort_ok argsortZ -> lists_places argsortF -> order_blind solve ->
  tables m ns bs fs -> tables m' ns' bs' fs' -> renumbered ax rho m m' ns ns' bs bs' fs fs' ->
  build argsortZ m = Ok m0 ->
  exists m0' sg p, build argsortZ m' = Ok m0' /\ renumbered_nodes ax rho sg m0 m0' /\ renumbered_results ax sg p m0 m0' /\
    forall acts acts' m1 out, renumbered_settings p (m_set m) (m_set m') -> Forall2 (renumbered_action p) acts acts' ->
      play argsortF solve acts m0 = Ok (m1, out) ->
      exists m1', play argsortF solve acts' m0' = Ok (m1', out) /\ renumbered_nodes ax rho sg m1 m1' /\ renumbered_results ax sg p m1 m1'.
Proof.
  intros ax rho argsortZ argsortF solve m m' ns ns' bs bs' fs fs' m0 Hax HA Hsort Hsolve Hd Hd' Hre Hb.
  destruct (build_number ax Hax argsortZ rho m m' ns ns' bs bs' fs fs' HA Hd Hd' Hre m0 Hb)
    as (m0' & nh & sg & p & D1 & D1' & Hb' & Hnh & Hnd & Hinj & Hsg & Hu & Hnd1 & Hw & HL & Hst & Hnum & u & u' & B & B' & L & L' & Hnh' & HR & HS).
  exists m0', sg, p. split; [exact Hb'|].
  assert (Hone : forall l l', Forall2 (Sim ax (n_labels nh) sg p D1 D1') l l' -> Forall2 (renumbered_result ax sg p) l l').
  { clear. induction 1 as [|a a' l l' Ha _ IH]; constructor; [apply Ha|exact IH]. }
  split. { exists nh, (NodeH (map rho (pick sg (n_labels nh))) (map (turn ax) (pick sg (n_coords nh)))). repeat (split; [assumption|]). split; reflexivity. }
  split. { exists u, u'. split; [exact B|]. split; [exact B'|]. split; [apply Hone, HR|]. split; [congruence|apply HS]. }
  intros acts acts' m1 out Hset Hacts Hp.
  pose proof (Hnum (Hst Hset)) as HM.
  destruct (play_number ax Hax rho (n_labels nh) Hnd Hinj sg p Hsg D1 D1' Hu Hnd1 Hw HL argsortF solve Hsolve Hsort acts acts' Hacts m0 m0' m1 out HM Hp) as (m1' & Hp' & HM1).
  exists m1'. split; [exact Hp'|]. clear Hp Hp' Hb Hb'.
  destruct HM1 as (v & v' & nh1 & eh & fh & fh' & V & V' & N1 & N2 & N3 & N4 & _ & _ & _ & _ & _ & _ & _ & _ & _ & _ & HA1 & HR1 & HL1).
  split. { exists nh1, (NodeH (map rho (pick sg (n_labels nh1))) (map (turn ax) (pick sg (n_coords nh1)))). rewrite N3 in *. repeat (split; [assumption|]). split; reflexivity. }
  exists v, v'. split; [exact V|]. split; [exact V'|]. split; [apply Hone, HR1|]. split; [exact HL1|apply HA1].
Qed.
Print Assumptions C66_renumbered.

(** There is such a solver, and it solves every system with a unique solution: Gaussian
    elimination, with the answer zero for the other systems. *)
Theorem C66_solver : order_blind regular_gauss /\ forall n, solves n regular_gauss.
Proof. split; [exact regular_gauss_blind|exact regular_gauss_solves]. Qed.
Print Assumptions C66_solver.

(** ** A bar along y, and the same bar along z with the free node listed and numbered first *)
Lemma regular_gauss_exact2 : exact2 regular_gauss.
Proof.
  intros a b c d r s H.
  destruct (regular_gauss_solves 2 [[a; b]; [c; d]] [r; s]) as [HL HE]; [reflexivity|intros row [<-|[<-|[]]]; reflexivity| |reflexivity|].
  { intros v Hv H0. destruct v as [|x [|y [|? ?]]]; try discriminate. pose proof (H0 0%nat ltac:(lia)) as G0. pose proof (H0 1%nat ltac:(lia)) as G1. cbn in G0, G1.
    assert (Ex : (a * d - b * c) * x = 0) by (transitivity (d * (a * x + (b * y + 0)) - b * (c * x + (d * y + 0))); [ring|rewrite G0, G1; ring]).
    assert (Ey : (a * d - b * c) * y = 0) by (transitivity (a * (c * x + (d * y + 0)) - c * (a * x + (b * y + 0))); [ring|rewrite G0, G1; ring]).
    apply Rmult_integral in Ex. apply Rmult_integral in Ey. intros [|[|i]] Hi; cbn; [tauto|tauto|lia]. }
  destruct (regular_gauss _ _) as [|x [|y [|? ?]]]; try discriminate. exists x, y. split; [reflexivity|].
  pose proof (HE 0%nat ltac:(lia)) as G0. pose proof (HE 1%nat ltac:(lia)) as G1. cbn in G0, G1. split; lra.
Qed.

Lemma number_bar_session : exists m1 m2 out u1 u2 a,
  build argsort_ins (bar_model 1 (V3 0 2 3) 2 3 2 1 (ex_settings (-1) 3)) = Ok m1 /\ m_built m1 = Some u1 /\ a_DOF1 (u_an u1) = [4%nat] /\
  option_map n_labels (m_nodes m1) = Some [1; 2]%Z /\
  play sort2 regular_gauss [ARun 1] m1 = Ok (m2, out) /\ m_built m2 = Some u2 /\ nth_error (u_R u2) 3 = Some a /\
  a_lpf a = -9/4 /\ a_U a = [vzero; V3 0 (-3/4) 0] /\ a_force a = [-9/4].
Proof.
  assert (Hinv : forall m, (1 <= m <= Z.to_nat 3)%nat ->
    - (2) < fst (point (3 * 2 / 2) 0 1 (-1) (INR m * (comp (-1) (s_du (ex_settings (-1) 3)) (s_dlpf (ex_settings (-1) 3)) * IZR (Z.sgn (-1)))))).
  { intros m Hm. change (Z.to_nat 3) with 3%nat in Hm. assert (0 <= INR m <= 3).
    { split; [apply pos_INR|]. replace 3 with (INR 3) by (cbn; lra). apply le_INR. lia. }
    cbn. lra. }
  destruct (C41_session argsort_ins sort2 regular_gauss 1 (V3 0 2 3) 2 3 2 1 (ex_settings (-1) 3) (-1) 3 0 0
    argsort_ins_ok sort2_ok regular_gauss_exact2 ltac:(lia) ltac:(lra) eq_refl eq_refl eq_refl eq_refl eq_refl ltac:(lia) eq_refl
    ltac:(cbn; lia) ltac:(cbn; lra) ltac:(cbn; lia) ltac:(left; split; [reflexivity|lra]) ltac:(cbn; lra) Hinv) as (m1 & m2 & out & u2 & E1 & E2 & E3 & E4 & E5 & E6).
  destruct (E6 3%nat) as (a & u & lam & A1 & A2 & A3 & A4 & A5 & A6); [change (Z.to_nat 3) with 3%nat; lia|].
  cbn in A3. assert (Eu : u = -3/4) by lra. assert (El : lam = -9/4) by lra. rewrite Eu in A4, A6. rewrite El in A5.
  assert (HB : exists u1, m_built m1 = Some u1 /\ a_DOF1 (u_an u1) = [4%nat] /\ option_map n_labels (m_nodes m1) = Some [1; 2]%Z).
  { clear - E1. revert E1. match goal with |- ?b = Ok m1 -> _ => let r := eval lazy in b in change b with r end.
    intros H. injection H as <-. eexists. split; [reflexivity|]. split; reflexivity. }
  destruct HB as (u1 & Eu1 & HD & HN). exists m1, m2, out, u1, u2, a. do 4 (split; [assumption|]).
  split. { cbn [play]. rewrite E2. cbn [bind]. rewrite app_nil_r. reflexivity. }
  do 2 (split; [assumption|]). split; [exact A5|]. split; [exact A4|]. rewrite A6. f_equal. lra.
Qed.

(** The bar along z: the free end is called 7 and comes first, the fixed one 9. *)
Definition other_bar : model R :=
  Model (Some (NodeH [7; 9]%Z [V3 3 0 4; V3 3 0 2]))
    (Some (ElemH [1]%Z [(9, 7)]%Z [1]%Z [1]%Z (Tab false 1 [[3]]) (Tab false 1 [[2]])))
    (Some (BoundH [7; 9]%Z (UMat 3 [[0; 0; 1]; [0; 0; 0]]%Z))) (Some (ForceH [7]%Z 3 [[0; 0; 1]])) (ex_settings (-1) 3) None.
Definition other_names (l : Z) : Z := (11 - 2 * l)%Z.

Example C66_meets : exists m1 m2 out u a, build argsort_ins other_bar = Ok m1 /\
  play sort2 regular_gauss [ARun 1] m1 = Ok (m2, out) /\ m_built m2 = Some u /\ nth_error (u_R u) 3 = Some a /\
  a_lpf a = -9/4 /\ a_U a = [V3 0 0 (-3/4); vzero] /\ a_force a = [-9/4].
Proof.
  destruct number_bar_session as (m1 & m2 & out & u1 & u2 & a & E1 & E2 & E3 & EN & E4 & E5 & E6 & E7 & E8 & E9).
  set (m := bar_model 1 (V3 0 2 3) 2 3 2 1 (ex_settings (-1) 3)) in *.
  assert (T : tables m [(1%Z, V3 0 2 3); (2%Z, V3 0 4 3)] [(1%Z, [0; 0; 0]%Z); (2%Z, [0; 1; 0]%Z)] [(2%Z, [0; 1; 0])]).
  { unfold tables. split; [split; [reflexivity|cbn; unfold vadd, vmap2; cbn; numR; do 2 (f_equal; try lra); f_equal; f_equal; lra]|].
    split; [split; [reflexivity|split; [reflexivity|repeat constructor]]|]. split; [split; [reflexivity|split; [reflexivity|repeat constructor]]|].
    split; [cbn; lia|]. split; [repeat constructor; cbn; intuition lia|]. split; [intros r [<-|[<-|[]]]; reflexivity|]. intros h H. injection H as <-. reflexivity. }
  assert (T' : tables other_bar [(7%Z, V3 3 0 4); (9%Z, V3 3 0 2)] [(7%Z, [0; 0; 1]%Z); (9%Z, [0; 0; 0]%Z)] [(7%Z, [0; 0; 1])]).
  { unfold tables. split; [split; reflexivity|].
    split; [split; [reflexivity|split; [reflexivity|repeat constructor]]|]. split; [split; [reflexivity|split; [reflexivity|repeat constructor]]|].
    split; [cbn; lia|]. split; [repeat constructor; cbn; intuition lia|]. split; [intros r [<-|[<-|[]]]; reflexivity|]. intros h H. injection H as <-. reflexivity. }
  assert (Hax : axes (V3 2 0 1)%nat) by (unfold axes; cbn; apply Permutation_sym; transitivity [0; 2; 1]%nat; [repeat constructor|apply perm_swap]).
  assert (HR : renumbered (V3 2 0 1)%nat other_names m other_bar [(1%Z, V3 0 2 3); (2%Z, V3 0 4 3)] [(7%Z, V3 3 0 4); (9%Z, V3 3 0 2)]
    [(1%Z, [0; 0; 0]%Z); (2%Z, [0; 1; 0]%Z)] [(7%Z, [0; 0; 1]%Z); (9%Z, [0; 0; 0]%Z)] [(2%Z, [0; 1; 0])] [(7%Z, [0; 0; 1])]).
  { split; [intros x y _ _ H; unfold other_names in H; lia|]. split; [apply perm_swap|]. split; [apply perm_swap|]. split; [apply Permutation_refl|].
    split; [reflexivity|]. split; [right; discriminate|]. split; reflexivity. }
  destruct (C66_renumbered _ _ argsort_ins sort2 regular_gauss _ _ _ _ _ _ _ _ _ Hax argsort_ins_ok (fun l => Permutation_refl _) (proj1 C66_solver) T T' HR E1)
    as (m1' & sg & p & B & (h & h' & N1 & N2 & Hsg & N3 & N4) & (w & w' & W1 & W2 & _ & _ & HS) & P).
  rewrite N1 in EN. injection EN as EN. rewrite EN in *.
  assert (Ep : p = [0%nat]).
  { destruct HS as (_ & _ & _ & _ & _ & _ & _ & _ & _ & _ & _ & _ & _ & (Hp & _) & _). rewrite E2 in W1. injection W1 as <-. rewrite E3 in Hp.
    apply Permutation_sym, Permutation_length_1_inv in Hp. exact Hp. }
  assert (Esg : sg = [1; 0]%nat).
  { assert (EL : n_labels h' = [7; 9]%Z).
    { clear - B N2. revert B. match goal with |- ?b = Ok m1' -> _ => let r := eval lazy in b in change b with r end. intros H. injection H as <-. cbn in N2. injection N2 as <-. reflexivity. }
    rewrite EL in N3. pose proof (Permutation_length Hsg) as Ls. destruct sg as [|i [|j [|? ?]]]; try discriminate Ls.
    assert (In i [0; 1]%nat) by (eapply Permutation_in; [exact Hsg|left; reflexivity]). assert (In j [0; 1]%nat) by (eapply Permutation_in; [exact Hsg|right; left; reflexivity]).
    destruct H as [<-|[<-|[]]], H0 as [<-|[<-|[]]]; try discriminate N3. reflexivity. }
  subst p sg.
  destruct (P [ARun 1] [ARun 1] m2 out) as (m2' & P' & _ & (v & v' & V1 & V2 & HF & _)).
  { split; [reflexivity|]. exists (Some (-1)%Z), (Same (0%Z, None)). split; [reflexivity|]. split; [|split; [left; split; reflexivity|reflexivity]].
    split; [reflexivity|]. right. exists 0%nat, 0%nat. repeat split. }
  { repeat constructor. }
  { exact E4. }
  rewrite E5 in V1. injection V1 as <-.
  assert (Hn : forall k (l l' : list (analysis R)) x, Forall2 (renumbered_result (V3 2 0 1)%nat [1; 0]%nat [0%nat]) l l' -> nth_error l k = Some x ->
    exists y, nth_error l' k = Some y /\ renumbered_result (V3 2 0 1)%nat [1; 0]%nat [0%nat] x y).
  { clear. intros k l l' x H. revert k. induction H as [|b b' l l' Hb H IH]; intros [|k] E; cbn in E; try discriminate; [injection E as <-; cbn; eauto|cbn; eauto]. }
  destruct (Hn _ _ _ _ HF E6) as (a' & Ea' & (_ & EU & _ & _ & _ & _ & _ & Efo & _ & _ & El & _)).
  exists m1', m2', out, v', a'. do 4 (split; [assumption|]). rewrite El, E7, EU, E8, Efo, E9. split; [reflexivity|]. split; [|reflexivity]. reflexivity.
Qed.
