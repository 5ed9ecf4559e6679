(** * A concrete truss used to show that hypotheses are met

    Nodes 1 (0,0,0), 2 (3,0,0), 5 (3,4,0); element 7 from 1 to 2, elastic;
    element 9 from 2 to 5, plastic.  Node 2 is free in x and y and loaded. *)
From Coq Require Import List ZArith Bool Arith Lia Reals Lra.
Import ListNotations.
From Verif Require Import Num NumR Vec Handlers Material Analysis Truss Equil Solver ListFacts SpecMaterial SpecMech SpecMechR EquilFacts MechFacts StiffFacts MaterialFacts TangentFacts.
Local Open Scope R_scope.

Definition ex_ms : list (member R) :=
  [Mb 7 1 2 UmatEl [210; 0; 0] [1]; Mb 9 2 5 UmatPl [100; 10; 1] [2]].
Definition ex_ctx : ctx R :=
  Ctx [1; 2; 5]%Z [V3 0 0 0; V3 3 0 0; V3 3 4 0]
      (ElemH [7; 9]%Z [(1, 2); (2, 5)]%Z [1; 1]%Z [1; 2]%Z
             (Tab false 3 [[210; 0; 0]; [100; 10; 1]]) (Tab false 1 [[1]; [2]]))
      3 2 2.
Definition ex_an : analysis R :=
  An 1 (zeros3 3) (zeros3 3) (zeros3 3) (repeat 0 9) (zerosK 3) [0; 0] [0; 0] [0; 0]
     [0; 1; 2; 5; 6; 7; 8]%nat [3; 4]%nat [0; 0] [0; 0; 0] 0 (Some [[0; 0]; [0; 0]])
     [] 0 [] [] [1; -1] [[0; 0; 0]; [0; 0; 0]; [0; 0; 0]] [[0; 0; 0]; [1; -1; 0]; [0; 0; 0]].

Lemma ex_truss : truss_ok ex_ctx ex_ms.
Proof.
  repeat split; try reflexivity.
  - repeat constructor; cbn; intros H; repeat destruct H as [H|H]; try discriminate; auto.
  - repeat constructor; cbn; intros H; repeat destruct H as [H|H]; try discriminate; auto.
  - destruct H as [<-|[<-|[]]]; cbn; auto.
  - destruct H as [<-|[<-|[]]]; cbn; auto.
  - destruct H as [<-|[<-|[]]]; cbn; discriminate.
Qed.

Lemma ex_sizes : sizes_ok ex_ctx ex_ms ex_an.
Proof.
  unfold sizes_ok. do 4 (split; [reflexivity|]).
  split. { intros row [<-|[<-|[<-|[]]]]; reflexivity. }
  do 3 (split; [reflexivity|]).
  split. { repeat constructor; cbn; intros H; repeat destruct H as [H|H]; try discriminate; auto. }
  split. { intros k [<-|[<-|[]]]; cbn; lia. }
  split; [reflexivity|]. intros _. eexists. split; reflexivity.
Qed.

Lemma ex_loads : loads_ok ex_ctx ex_an.
Proof. split; reflexivity. Qed.

Lemma ex_quants U U0 : exists qs, quants ex_ctx U U0 (state_row ex_ctx ex_an) 0 ex_ms qs.
Proof.
  assert (Hpl : forall e de, exists x, umat UmatPl e de [100; 10; 1] (Some [0; 0]) = Ok x).
  { intros e de. destruct (umat_pl_total 100 10 1 e de 0 0) as (s & t & y & p & E). eexists. exact E. }
  assert (H2 : exists q, member_q ex_ctx U U0 (state_row ex_ctx ex_an 1) (Mb 9 2 5 UmatPl [100; 10; 1] [2]) = Ok q).
  { unfold member_q, truss_quantities. cbn [mb_law mb_mat mb_geo].
    change (state_row ex_ctx ex_an 1) with (Some [0; 0]). cbn zeta.
    match goal with |- context [umat UmatPl ?e ?de _ _] => destruct (Hpl e de) as [[[s t] st] E] end.
    rewrite E. cbn [bind]. eexists. reflexivity. }
  destruct H2 as [q2 H2].
  eexists. unfold ex_ms. apply quants_cons; [reflexivity|]. apply quants_cons; [exact H2|]. constructor.
Qed.

Lemma ex_equilibrium V V0 w : length V = 3%nat -> length V0 = 3%nat ->
  exists an' g, equilibrium ex_ctx V V0 w ex_an = Ok (an', g).
Proof.
  intros HV HV0. destruct (ex_quants [] []) as [qs Hq].
  exact (equilibrium_total _ _ _ _ w _ _ _ _ ex_truss ex_sizes ex_loads HV HV0 Hq).
Qed.

Lemma stiffness_total c ms u an U U0 (qs : list (truss_q (F:=R))) :
  truss_ok c ms -> sizes_ok c ms an -> length u = c_ndof1 c ->
  quants c U U0 (state_row c an) 0 ms qs ->
  exists an' K, stiffness c u an = Ok (an', K).
Proof.
  intros Hok Hsz Hu Hq. pose proof Hsz as (HU & HU0 & _ & _ & _ & _ & _ & _ & HD & HD' & Hn & _).
  assert (Hp : exists an1, equil_prepare c StK u u an = Ok (an1, u, a_lpf an)).
  { unfold equil_prepare. destruct (Nat.ltb_spec (c_ndof1 c) (length u)); [lia|]. cbn zeta.
    destruct (scatter_total (a_U an) (a_DOF1 an) u) as [x Hx]; [intros; rewrite HU; auto|lia|].
    destruct (scatter_total (a_U0 an) (a_DOF1 an) u) as [y Hy]; [intros; rewrite HU0; auto|lia|].
    cbn [a_U a_U0 a_DOF1 set_K]. rewrite Hx. cbn [bind]. rewrite Hy. cbn [bind]. eauto. }
  destruct Hp as [an1 Hp]. unfold stiffness. rewrite Hp. cbn [bind].
  pose proof (prepare_sizes _ _ _ _ _ _ _ _ _ Hsz Hp) as Hsz1.
  pose proof (prepare_frame _ _ _ _ _ _ _ _ Hp) as (P1 & P2 & _).
  destruct (quants_total _ _ _ (a_U an1) (a_U0 an1) _ _ _ _ Hq) as [qs' Hq'].
  assert (Hq1 : quants c (a_U an1) (a_U0 an1) (state_row c an1) 0 ms qs').
  { eapply quants_ext; [|exact Hq']. intros j _. unfold state_row. rewrite P1. reflexivity. }
  rewrite (elem_loop_ok c ms StK _ _ false an1 qs' Hok Hsz1 Hq1). cbn [bind].
  set (an2 := loop_an StK c u (a_lpf an) false (zipk 0 ms qs') an1).
  assert (Hsz2 : sizes_ok c ms an2) by (apply loop_sizes; auto; intros x Hx; eapply zipk_In; eauto).
  destruct Hsz2 as (_ & _ & _ & A & B & _ & _ & _ & _ & D & _).
  assert (HK : kdims (length (c_labels c)) (a_K an2)) by (split; auto).
  destruct (flat_K_dims _ _ HK) as [F1 F2].
  destruct (select2_total _ _ (a_DOF1 an2) F1 F2 D) as [K HK2]. rewrite HK2. cbn [bind]. eauto.
Qed.

Lemma ex_stiffness u : length u = 2%nat -> exists an' K, stiffness ex_ctx u ex_an = Ok (an', K).
Proof.
  intros Hu. destruct (ex_quants [] []) as [qs Hq].
  exact (stiffness_total _ _ _ _ _ _ _ ex_truss ex_sizes Hu Hq).
Qed.

Lemma sqrt_sq x y : 0 <= x -> x * x = y -> sqrt y = x.
Proof. intros Hx <-. apply sqrt_square. exact Hx. Qed.

(** The undeformed state is regular. *)
Lemma ex_regular : regular ex_ctx ex_ms ex_an (zeros3 3).
Proof.
  assert (L1 : len (V3 3 0 0) = 3) by (unfold len; cbn; apply sqrt_sq; lra).
  assert (L2 : len (V3 0 4 0) = 4) by (unfold len; cbn; apply sqrt_sq; lra).
  intros [|[|k]] m Hm; cbn in Hm; [| |destruct k; discriminate]; injection Hm as <-.
  - assert (A0 : axis0 ex_ctx (Mb 7 1 2 UmatEl [210; 0; 0] [1]) = V3 3 0 0).
    { unfold axis0, vsub, vmap2. cbn. f_equal; ring. }
    assert (A1 : axis ex_ctx (zeros3 3) (Mb 7 1 2 UmatEl [210; 0; 0] [1]) = V3 3 0 0).
    { unfold axis, place, vsub, vadd, vmap2. cbn. f_equal; ring. }
    rewrite A0, A1, L1. cbn. repeat split; lra.
  - assert (A0 : axis0 ex_ctx (Mb 9 2 5 UmatPl [100; 10; 1] [2]) = V3 0 4 0).
    { unfold axis0, vsub, vmap2. cbn. f_equal; ring. }
    assert (A1 : axis ex_ctx (zeros3 3) (Mb 9 2 5 UmatPl [100; 10; 1] [2]) = V3 0 4 0).
    { unfold axis, place, vsub, vadd, vmap2. cbn. f_equal; ring. }
    unfold stretch_of. rewrite A0, A1, L2. split; [lra|]. split; [lra|].
    change (state_row ex_ctx ex_an 1) with (Some [0; 0]). cbn [smooth_at mb_law mb_mat].
    unfold yield_before. destruct (Req_EM_T 0 0) as [_|]; [|lra].
    replace (100 * (4 / 4 - 1 - 0)) with 0 by field. rewrite Rabs_R0. lra.
Qed.

Lemma ex_stiffness_U an' K : stiffness ex_ctx [0; 0] ex_an = Ok (an', K) -> a_U an' = zeros3 3.
Proof.
  intros H. destruct (stiffness_inv _ _ _ _ _ _ ex_truss ex_sizes H) as (an1 & u & lam & qs & Hp & _ & E & _).
  subst an'. cbn [a_U set_Kred].
  pose proof (loop_frame StK ex_ctx u lam false (zipk 0 ex_ms qs) an1) as Hf. cbn zeta in Hf. destruct Hf as (-> & _).
  destruct (prepare_U _ _ _ _ _ _ _ _ _ Hp eq_refl) as [_ H2]. destruct (H2 eq_refl) as [H3 _].
  cbn in H3. injection H3 as <-. reflexivity.
Qed.
