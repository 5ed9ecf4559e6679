(** * Element order, reactions, uniaxial bar (R) *)
From Coq Require Import List ZArith Bool Arith Lia Reals Lra Permutation.
Import ListNotations.
From Verif Require Import Num NumR Vec Handlers Material Analysis Truss Equil ListFacts SpecMaterial SpecMech SpecMechR EquilFacts MechFacts StiffFacts TangentFacts.
Local Open Scope R_scope.

(** ** Permuting the members *)

Lemma member_q_same c c' U U0 sv m : same_nodes c c' -> member_q c' U U0 sv m = member_q c U U0 sv m.
Proof. intros (E1 & E2 & _). unfold member_q. rewrite E1, E2. reflexivity. Qed.

Lemma quants_fun c U U0 row k ms (qs qs' : list (truss_q (F:=R))) :
  quants c U U0 row k ms qs -> quants c U U0 row k ms qs' -> qs = qs'.
Proof.
  intros H. revert qs'. induction H as [|k m ms q qs Hq Hqs IH]; intros qs' H'; inversion H'; subst; auto.
  f_equal; [congruence|auto].
Qed.

Lemma quants_of c' U U0 (row' : nat -> option (list R)) P ms2 : forall k,
  (forall i m, nth_error ms2 i = Some m -> exists q, P m q /\ member_q c' U U0 (row' (k + i)%nat) m = Ok q) ->
  exists qs, quants c' U U0 row' k ms2 qs /\ forall m q, In (m, q) (combine ms2 qs) -> P m q.
Proof.
  induction ms2 as [|m ms2 IH]; intros k H.
  - exists []. split; [constructor|]. intros m q [].
  - destruct (H 0%nat m eq_refl) as (q & HP & Hq). rewrite Nat.add_0_r in Hq.
    destruct (IH (S k)) as (qs & Hqs & HPs).
    { intros i m' Hi. rewrite Nat.add_succ_comm. apply (H (S i)). exact Hi. }
    exists (q :: qs). split; [constructor; auto|]. intros m' q' [E|Hin]; [injection E as <- <-; auto|auto].
Qed.

Lemma NoDup_combine {A B} (la : list A) (lb : list B) : NoDup la -> NoDup (combine la lb).
Proof.
  intros H. revert lb. induction H as [|a la Hn Hd IH]; intros [|b lb]; cbn; constructor; auto.
  intros Hin. apply in_combine_l in Hin. contradiction.
Qed.

Lemma quants_perm c c' U U0 row row' ms ms' qs :
  same_nodes c c' -> NoDup ms -> Permutation ms ms' ->
  (forall k k' m, nth_error ms k = Some m -> nth_error ms' k' = Some m -> row' k' = row k) ->
  quants c U U0 row 0 ms qs ->
  exists qs', quants c' U U0 row' 0 ms' qs' /\ Permutation (combine ms qs) (combine ms' qs').
Proof.
  intros Hs Hnd Hp Hrow Hq. pose proof (quants_length _ _ _ _ _ _ _ Hq) as Hl.
  destruct (quants_of c' U U0 row' (fun m q => In (m, q) (combine ms qs)) ms' 0) as (qs' & Hq' & Hin).
  { intros k' m Hk'. assert (Hm : In m ms) by (eapply Permutation_in; [symmetry; exact Hp|eapply nth_error_In; eauto]).
    apply In_nth_error in Hm. destruct Hm as [k Hk].
    destruct (quants_nth _ _ _ _ _ _ _ Hq _ _ Hk) as (q & Hqk & Hmq). exists q. split.
    - apply nth_error_In with (n := k). rewrite nth_error_combine, Hk, Hqk. reflexivity.
    - rewrite (member_q_same c c') by exact Hs. cbn [Nat.add] in *. rewrite (Hrow _ _ _ Hk Hk'). exact Hmq. }
  exists qs'. split; [exact Hq'|]. pose proof (quants_length _ _ _ _ _ _ _ Hq') as Hl'.
  symmetry. apply NoDup_Permutation_bis.
  - apply NoDup_combine. eapply Permutation_NoDup; eauto.
  - rewrite !combine_length, Hl, Hl', !Nat.min_id. rewrite (Permutation_length Hp). auto.
  - intros [m q] Hx. apply Hin. exact Hx.
Qed.

Lemma axis_same c c' U m : same_nodes c c' -> axis c' U m = axis c U m.
Proof. intros (E1 & E2 & _). unfold axis, place. rewrite E1, E2. reflexivity. Qed.

Lemma pull_same c c' U l x : same_nodes c c' -> pull c' U l x = pull c U l x.
Proof. intros H. unfold pull, direction. rewrite (axis_same c c') by exact H. reflexivity. Qed.

Lemma NoDup_map_inv' {A B} (f : A -> B) l : NoDup (map f l) -> NoDup l.
Proof. apply NoDup_map_inv. Qed.

(** Same data in the arrays that do not belong to elements. *)
Lemma equilibrium_qs c ms V V0 w an an' g :
  truss_ok c ms -> sizes_ok c ms an -> equilibrium c V V0 w an = Ok (an', g) ->
  exists qs, quants c (a_U an') (a_U0 an') (state_row c an) 0 ms qs /\
    a_stretch an' = map q_lam qs /\ a_stress an' = map q_stress qs /\ a_force an' = map q_N qs.
Proof.
  intros Hok Hsz H.
  destruct (equilibrium_inv _ _ _ _ _ _ _ _ Hok Hsz H) as (an1 & u & lam & qs & g' & Hp & Hq & E & _ & _).
  pose proof (prepare_sizes _ _ _ _ _ _ _ _ _ Hsz Hp) as (_ & _ & _ & _ & _ & S1 & S2 & S3 & _).
  pose proof (quants_length _ _ _ _ _ _ _ Hq) as Hlq.
  exists qs. split; [exact Hq|]. subst an'.
  split; [|split]; [apply loop_stretch|apply loop_stress|apply loop_force]; auto.
Qed.

Lemma prepare_UU0 c st V V0 (an an1 : analysis R) u lam :
  equil_prepare c st V V0 an = Ok (an1, u, lam) ->
  let ext := Nat.ltb (c_ndof1 c) (length V) in
  scatter (a_U an) (a_DOF1 an) (if ext then firstn (c_ndof1 c) V else V) = Ok (a_U an1) /\
  scatter (a_U0 an) (a_DOF1 an) (if ext then firstn (c_ndof1 c) V0 else V0) = Ok (a_U0 an1).
Proof.
  unfold equil_prepare. intros H. mstep H. mstep H. injection H as <- <- <-. destruct st; cbn in *; auto.
Qed.

Lemma loop_UU0 st c (ms : list (member R)) u lam w l (an : analysis R) :
  a_U (loop_an st c u lam w l an) = a_U an /\ a_U0 (loop_an st c u lam w l an) = a_U0 an.
Proof. pose proof (loop_frame st c u lam w l an) as Hf. cbn zeta in Hf. destruct Hf as (E1 & E2 & _). auto. Qed.

Lemma element_order c c' ms ms' V V0 w an an' an1 g1 :
  truss_ok c ms -> truss_ok c' ms' -> sizes_ok c ms an -> sizes_ok c' ms' an' ->
  same_nodes c c' -> Permutation ms ms' -> same_state an an' -> loads_ok c an ->
  (forall k k' m, nth_error ms k = Some m -> nth_error ms' k' = Some m ->
     state_row c' an' k' = state_row c an k) ->
  length V = S (c_ndof1 c) -> length V0 = S (c_ndof1 c) ->
  equilibrium c V V0 w an = Ok (an1, g1) ->
  exists an2, equilibrium c' V V0 w an' = Ok (an2, g1) /\
    (forall l, In l (c_labels c) ->
       row_of (c_labels c) (a_r an2) vzero l = row_of (c_labels c) (a_r an1) vzero l) /\
    (forall k k' m, nth_error ms k = Some m -> nth_error ms' k' = Some m ->
       nth_error (a_stretch an2) k' = nth_error (a_stretch an1) k /\
       nth_error (a_stress an2) k' = nth_error (a_stress an1) k /\
       nth_error (a_force an2) k' = nth_error (a_force an1) k).
Proof.
  intros Hok Hok' Hsz Hsz' Hs Hperm Hss Hld Hrow HV HV0 H.
  pose proof Hs as (Es1 & Es2 & Es3). pose proof Hss as (D1 & D2 & D3 & D4 & D5).
  assert (Hld' : loads_ok c' an') by (unfold loads_ok in *; rewrite D4, D5, Es1; exact Hld).
  assert (Hnd : NoDup ms) by (eapply NoDup_map_inv; apply Hok).
  destruct (equilibrium_qs _ _ _ _ _ _ _ _ Hok Hsz H) as (qs & Hq & F1 & F2 & F3).
  destruct (quants_perm c c' _ _ _ (state_row c' an') ms ms' qs Hs Hnd Hperm Hrow Hq) as (qs' & Hq' & HP).
  destruct (equilibrium_total c' ms' V V0 w an' _ _ _ Hok' Hsz' Hld' ltac:(lia) ltac:(lia) Hq') as (an2 & g2 & H2).
  destruct (equilibrium_qs _ _ _ _ _ _ _ _ Hok' Hsz' H2) as (qs2 & Hq2 & G1 & G2 & G3).
  assert (EU : a_U an2 = a_U an1 /\ a_U0 an2 = a_U0 an1).
  { destruct (equilibrium_inv _ _ _ _ _ _ _ _ Hok Hsz H) as (x1 & u1 & l1 & p1 & y1 & Hp1 & _ & E1 & _ & _).
    destruct (equilibrium_inv _ _ _ _ _ _ _ _ Hok' Hsz' H2) as (x2 & u2 & l2 & p2 & y2 & Hp2 & _ & E2 & _ & _).
    destruct (prepare_UU0 _ _ _ _ _ _ _ _ Hp1) as [A1 A2]. destruct (prepare_UU0 _ _ _ _ _ _ _ _ Hp2) as [B1 B2].
    rewrite D1, D3, Es3 in B1. rewrite D2, D3, Es3 in B2.
    subst an1 an2. cbn [a_U a_U0 set_g].
    destruct (loop_UU0 StG c ms u1 l1 w (zipk 0 ms p1) x1) as [-> ->].
    destruct (loop_UU0 StG c' ms' u2 l2 w (zipk 0 ms' p2) x2) as [-> ->]. split; congruence. }
  destruct EU as [EU EU0]. rewrite EU, EU0 in Hq2.
  assert (qs2 = qs') by (eapply quants_fun; eauto). subst qs2.
  assert (Hr : forall l, In l (c_labels c) ->
     row_of (c_labels c) (a_r an2) vzero l = row_of (c_labels c) (a_r an1) vzero l).
  { intros l Hl. destruct (internal_forces _ _ _ _ _ _ _ _ Hok Hsz H) as [_ B1].
    destruct (internal_forces _ _ _ _ _ _ _ _ Hok' Hsz' H2) as [_ B2].
    rewrite Es1 in B2. rewrite B1, B2 by auto. rewrite EU, F3, G3.
    rewrite <- !map_combine_map. apply vsum_perm.
    rewrite (map_ext (fun p => pull c' (a_U an1) l (fst p, q_N (snd p))) (fun p => pull c (a_U an1) l (fst p, q_N (snd p)))) by (intros; apply pull_same; exact Hs).
    apply Permutation_map. symmetry. exact HP. }
  assert (Eg : g2 = g1).
  { destruct (residual_formula _ _ _ _ _ _ _ _ Hok Hsz Hld HV H) as (_ & L1 & R1).
    assert (HV' : length V = S (c_ndof1 c')) by lia.
    destruct (residual_formula _ _ _ _ _ _ _ _ Hok' Hsz' Hld' HV' H2) as (_ & L2 & R2).
    rewrite D3 in L2, R2. rewrite Es1 in R2.
    apply nth_ext with (d := 0) (d' := 0); [congruence|]. intros i Hi. rewrite L2 in Hi.
    pose proof (nth_nth_error (a_DOF1 an) i 0%nat Hi) as Ei.
    assert (Hp3 : (nth i (a_DOF1 an) 0 < 3 * length (c_labels c))%nat) by (apply Hsz; eapply nth_error_In; eauto).
    assert (Hp3' : (nth i (a_DOF1 an) 0 / 3 < length (c_labels c))%nat) by (apply Nat.div_lt_upper_bound; lia).
    pose proof (nth_nth_error (c_labels c) _ 0%Z Hp3') as Lp.
    rewrite (R1 _ _ _ Ei Lp), (R2 _ _ _ Ei Lp), Hr, D4, D5 by (eapply nth_error_In; eauto). reflexivity. }
  subst g2. exists an2. split; [exact H2|]. split; [exact Hr|].
  intros k k' m Hk Hk'.
  destruct (quants_nth _ _ _ _ _ _ _ Hq _ _ Hk) as (q & Eq & Hmq).
  destruct (quants_nth _ _ _ _ _ _ _ Hq' _ _ Hk') as (q' & Eq' & Hmq').
  rewrite (member_q_same c c') in Hmq' by exact Hs. cbn [Nat.add] in *. rewrite (Hrow _ _ _ Hk Hk') in Hmq'.
  assert (q' = q) by congruence. subst q'.
  rewrite F1, F2, F3, G1, G2, G3, !nth_error_map, Eq, Eq'. auto.
Qed.

Lemma stiffness_order c c' ms ms' u an an' an1 K1 :
  truss_ok c ms -> truss_ok c' ms' -> sizes_ok c ms an -> sizes_ok c' ms' an' ->
  same_nodes c c' -> Permutation ms ms' -> same_state an an' ->
  (forall k k' m, nth_error ms k = Some m -> nth_error ms' k' = Some m ->
     state_row c' an' k' = state_row c an k) ->
  length u = c_ndof1 c ->
  stiffness c u an = Ok (an1, K1) ->
  exists an2, stiffness c' u an' = Ok (an2, K1) /\
    (forall l l', In l (c_labels c) -> In l' (c_labels c) ->
       K_block c (a_K an2) l l' = K_block c (a_K an1) l l').
Proof.
  intros Hok Hok' Hsz Hsz' Hs Hperm Hss Hrow Hu H.
  pose proof Hs as (Es1 & Es2 & Es3). pose proof Hss as (D1 & D2 & D3 & D4 & D5).
  assert (Hnd : NoDup ms) by (eapply NoDup_map_inv; apply Hok).
  destruct (stiffness_inv _ _ _ _ _ _ Hok Hsz H) as (x1 & u1 & l1 & qs & Hp1 & Hq & E1 & Hsel & HKd & Hent).
  destruct (quants_perm c c' _ _ _ (state_row c' an') ms ms' qs Hs Hnd Hperm Hrow Hq) as (qs' & Hq' & HP).
  (* the second evaluation succeeds *)
  assert (Hp2 : exists x2, equil_prepare c' StK u u an' = Ok (x2, u, a_lpf an') /\ a_U x2 = a_U an1 /\ a_U0 x2 = a_U0 an1).
  { destruct (prepare_UU0 _ _ _ _ _ _ _ _ Hp1) as [A1 A2]. cbn zeta in A1, A2.
    destruct (Nat.ltb_spec (c_ndof1 c) (length u)); [lia|].
    unfold equil_prepare. rewrite Es3. destruct (Nat.ltb_spec (c_ndof1 c) (length u)); [lia|]. cbn zeta.
    cbn [a_U a_U0 a_DOF1 set_K]. rewrite D1, D3, A1. cbn [bind]. rewrite D2, A2. cbn [bind].
    eexists. split; [reflexivity|]. subst an1. cbn [a_U a_U0 set_Kred set_U0 set_U set_K].
    destruct (loop_UU0 StK c ms u1 l1 false (zipk 0 ms qs) x1) as [-> ->]. auto. }
  destruct Hp2 as (x2 & Hp2 & EU & EU0).
  pose proof (prepare_sizes _ _ _ _ _ _ _ _ _ Hsz' Hp2) as Hsz2.
  pose proof (prepare_frame _ _ _ _ _ _ _ _ Hp2) as (P1 & P2 & _).
  assert (Hq2 : quants c' (a_U x2) (a_U0 x2) (state_row c' x2) 0 ms' qs').
  { rewrite EU, EU0. eapply quants_ext; [|exact Hq']. intros j _. unfold state_row. rewrite P1. reflexivity. }
  pose proof (elem_loop_ok c' ms' StK u (a_lpf an') false x2 qs' Hok' Hsz2 Hq2) as HL.
  set (y2 := loop_an StK c' u (a_lpf an') false (zipk 0 ms' qs') x2) in *.
  assert (Hszy : sizes_ok c' ms' y2) by (apply loop_sizes; auto; intros x Hx; eapply zipk_In; eauto).
  assert (Hyd : kdims (length (c_labels c')) (a_K y2)).
  { destruct Hszy as (_ & _ & _ & A & B & _). split; auto. }
  assert (HyD : a_DOF1 y2 = a_DOF1 an).
  { unfold y2. pose proof (loop_frame StK c' u (a_lpf an') false (zipk 0 ms' qs') x2) as Hf. cbn zeta in Hf.
    destruct Hf as (_ & _ & _ & _ & _ & E & _). rewrite E, P2. exact D3. }
  destruct (flat_K_dims _ _ Hyd) as [Hfl Hfr].
  destruct (select2_total (3 * length (c_labels c')) (flat_K (a_K y2)) (a_DOF1 y2) Hfl Hfr) as [K2 HK2].
  { intros k Hk. rewrite HyD in Hk. rewrite Es1. apply Hsz. exact Hk. }
  assert (H2 : stiffness c' u an' = Ok (set_Kred K2 y2, K2)).
  { unfold stiffness. rewrite Hp2. cbn [bind]. rewrite HL. cbn [bind]. rewrite HK2. reflexivity. }
  destruct (stiffness_inv _ _ _ _ _ _ Hok' Hsz' H2) as (x3 & u3 & l3 & qs3 & _ & Hq3 & _ & _ & HKd2 & Hent2).
  assert (qs3 = qs').
  { eapply quants_fun; [exact Hq3|]. cbn [a_U a_U0 set_Kred].
    destruct (loop_UU0 StK c' ms' u (a_lpf an') false (zipk 0 ms' qs') x2) as [E3 E4]. fold y2 in E3, E4.
    rewrite E3, E4, EU, EU0. exact Hq'. }
  subst qs3. cbn [a_K set_Kred] in *. rewrite Es1 in HKd2, Hent2.
  assert (HKe : forall l l', In l (c_labels c) -> In l' (c_labels c) ->
     kent (a_K y2) (idx l (c_labels c)) (idx l' (c_labels c)) = kent (a_K an1) (idx l (c_labels c)) (idx l' (c_labels c))).
  { intros l l' Hl Hl'. rewrite Hent, Hent2 by auto. apply msum_perm. apply Permutation_map. symmetry. exact HP. }
  assert (EK : K2 = K1).
  { rewrite HyD in HK2.
    destruct (select2_ent _ _ _ Hsel) as (La & Ea & Ra). destruct (select2_ent _ _ _ HK2) as (Lb & Eb & Rb).
    apply nth_ext with (d := []) (d' := []); [congruence|]. intros i Hi.
    assert (L1 : length (nth i K2 []) = length (a_DOF1 an)) by (apply Rb; apply nth_In; exact Hi).
    assert (L2 : length (nth i K1 []) = length (a_DOF1 an)) by (apply Ra; apply nth_In; lia).
    apply nth_ext with (d := 0) (d' := 0); [congruence|]. intros j Hj.
    pose proof (nth_nth_error (a_DOF1 an) i 0%nat ltac:(lia)) as Ei.
    pose proof (nth_nth_error (a_DOF1 an) j 0%nat ltac:(lia)) as Ej.
    rewrite (Ea _ _ _ _ Ei Ej), (Eb _ _ _ _ Ei Ej).
    set (p := nth i (a_DOF1 an) 0%nat) in *. set (q := nth j (a_DOF1 an) 0%nat) in *.
    assert (Hp3 : (p < 3 * length (c_labels c))%nat) by (apply Hsz; eapply nth_error_In; eauto).
    assert (Hq3' : (q < 3 * length (c_labels c))%nat) by (apply Hsz; eapply nth_error_In; eauto).
    rewrite !(flat_K_ent (length (c_labels c))) by auto.
    assert (Hp4 : (p / 3 < length (c_labels c))%nat) by (apply Nat.div_lt_upper_bound; lia).
    assert (Hq4 : (q / 3 < length (c_labels c))%nat) by (apply Nat.div_lt_upper_bound; lia).
    pose proof (nth_nth_error (c_labels c) _ 0%Z Hp4) as Lp.
    pose proof (nth_nth_error (c_labels c) _ 0%Z Hq4) as Lq.
    specialize (HKe _ _ (nth_error_In _ _ Lp) (nth_error_In _ _ Lq)).
    rewrite !(idx_of_nth _ _ _ (proj1 Hok) Lp), !(idx_of_nth _ _ _ (proj1 Hok) Lq) in HKe.
    rewrite HKe. reflexivity. }
  subst K2. exists (set_Kred K1 y2). split; [exact H2|]. cbn [a_K set_Kred].
  intros l l' Hl Hl'. rewrite !K_block_kent by (auto; apply Hok). apply HKe; auto.
Qed.
