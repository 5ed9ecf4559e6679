(** * What the answer does not depend on

    C44 in exact arithmetic, not on where the origin is, the names of the nodes and
    elements, the order of the table rows and the direction in which a bar is drawn;
    C45 in any arithmetic, not on names and the order of the rows for nodes, supports
    and loads.  Vocabulary: SpecSame.v, SpecRun.v, SpecBuild.v. *)
From Coq Require Import List ZArith Bool Arith Lia Permutation Reals Lra.
Import ListNotations.
From Verif Require Import Num NumR NumFix Vec Handlers Material Analysis Truss Equil Solver Run ListFacts SpecMech SpecMechR
  SpecBuild BuildFacts SpecState SpecRun SpecBar EquilFacts MechFacts EditFacts SpecSame SameFacts SameRun SameMech ExRun PropBar.

(** ** C44 the same truss drawn differently *)
(** The second model has the node coordinates of the first moved by [t], node names
    [rho] that keep the order of the nodes, other element labels, the rows of all
    tables in other orders, and some bars drawn in the opposite direction.  Whatever
    runs and changes of settings follow, if they succeed for the first model they
    succeed for the second, print the same lines, and give the same displacements,
    forces and load factors; the element arrays hold the same values in the order of
    the elements. *)
Theorem C44_redrawn : forall argsortZ argsortF solve rho (t : v3 R) m m' ns ns' ms ms' bs bs' fs fs' p acts m1 out,
  argsort_ok argsortZ -> described m ns ms bs fs -> described m' ns' ms' bs' fs' ->
  redrawn rho (fun x => vadd x t) m m' ns ns' bs bs' fs fs' ->
  bars_by (fun b b' => same_bar rho b b' \/ turned_bar rho b b') p ms ms' ->
  build_and_play argsortF solve argsortZ m acts = Ok (m1, out) ->
  exists m1', build_and_play argsortF solve argsortZ m' acts = Ok (m1', out) /\ same_results p m1 m1'.
Proof.
  intros argsortZ argsortF solve rho t m m' ns ns' ms ms' bs bs' fs fs' p acts m1 out HA Hd Hd' Hre Hby H.
  destruct (same_play argsortZ argsortF solve rho (fun x => vadd x t) m m' ns ns' ms ms' bs bs' fs fs'
    (fun b b' => same_bar rho b b' \/ turned_bar rho b b') p acts m1 out HA Hd Hd' Hre Hby) as (m1' & c & c' & H' & HM).
  - intros b b' [Hb|Hb]; apply Hb.
  - intros c c' Hok El Ec Hinj b b' Hb [Hs|Hs]; [|eapply alike_turned; eauto].
    refine (alike_same rho (fun x => vadd x t) c c' ms b b' _ Hok El Ec Hinj Hb Hs). intros; veq.
  - intros c. apply order_free_R.
  - exact H.
  - exists m1'. split; [exact H'|]. eapply msim_results, HM.
Qed.
Print Assumptions C44_redrawn.

(** ** C45 names *)
(** Names of nodes, as long as they keep their order, labels of elements, and the
    order in which nodes, supports and loads are listed do not enter the computation:
    the same lines are printed and everything computed is identical. *)
Theorem C45_names : forall F (NF : Num F) argsortZ argsortF solve rho (m m' : model F) ns ns' ms ms' bs bs' fs fs' acts m1 out,
  argsort_ok argsortZ -> described m ns ms bs fs -> described m' ns' ms' bs' fs' ->
  redrawn rho (fun x => x) m m' ns ns' bs bs' fs fs' -> Forall2 (same_bar rho) ms ms' ->
  build_and_play argsortF solve argsortZ m acts = Ok (m1, out) ->
  exists m1', build_and_play argsortF solve argsortZ m' acts = Ok (m1', out) /\ m_built m1' = m_built m1.
Proof.
  intros F NF argsortZ argsortF solve rho m m' ns ns' ms ms' bs bs' fs fs' acts m1 out HA Hd Hd' Hre Hby H.
  destruct (same_play argsortZ argsortF solve rho (fun x => x) m m' ns ns' ms ms' bs bs' fs fs'
    (same_bar rho) (seq 0 (length ms)) acts m1 out HA Hd Hd' Hre) as (m1' & c & c' & H' & HM).
  - split; [reflexivity|]. clear - Hby.
    assert (G : forall pre, Forall2 (fun i b' => exists b, nth_error (pre ++ ms) i = Some b /\ same_bar rho b b') (seq (length pre) (length ms)) ms').
    { induction Hby as [|b b' ms ms' Hb H IH]; intros pre; cbn [length seq]; constructor.
      - exists b. rewrite nth_error_app2, Nat.sub_diag by lia. auto.
      - specialize (IH (pre ++ [b])). rewrite <- app_assoc, app_length in IH. cbn [length app] in IH. rewrite Nat.add_1_r in IH. exact IH. }
    apply (G []).
  - intros b b' Hb; apply Hb.
  - intros c c' Hok El Ec Hinj b b' Hb Hs. refine (alike_same rho (fun x => x) c c' ms b b' _ Hok El Ec Hinj Hb Hs). reflexivity.
  - intros c. left. reflexivity.
  - exact H.
  - exists m1'. split; [exact H'|].
    destruct HM as (_ & u & u' & nh & nh' & eh & eh' & fh & fh' & Eu & Eu' & _ & _ & _ & _ & _ & _ & _ & _ & _ & HS & HR & HL & HN & HN1).
    rewrite Eu, Eu'. f_equal.
    assert (Hsim : forall a b, Sim c ms (seq 0 (length ms)) a b -> b = a).
    { intros a b [Hs Hz]. destruct Hz as (_ & _ & _ & _ & _ & L1 & L2 & L3 & _ & _ & _ & L4).
      apply an_ext; rewrite ?L1, ?L2, ?L3; auto. }
    assert (ER : u_R u' = u_R u).
    { clear - HR Hsim. induction HR as [|a b l l' Hab H IH]; [reflexivity|]. rewrite IH, (Hsim _ _ Hab). reflexivity. }
    apply Hsim in HS. destruct u, u'. cbn in *. congruence.
Qed.
Print Assumptions C45_names.

(** ** The hypotheses are met *)
(** The sample truss with nodes 10, 20, 50 instead of 1, 2, 5 and elements 3, 1
    instead of 7, 9, nodes and supports listed in another order. *)
Definition xs_rho (z : Z) : Z := (10 * z)%Z.
Section Sample.
  Context {F : Type} `{NF : Num F}.
  Definition xs_ns (mv : v3 F -> v3 F) : list (Z * v3 F) :=
    [(50%Z, mv (V3 (q 3 1) (q 8 1) f0)); (10%Z, mv (V3 f0 f0 f0)); (20%Z, mv (V3 (q 3 1) (q 4 1) f0))].
  Definition xs_bs : list (Z * list Z) := [(20, [1; 1; 0]); (10, [0; 0; 0]); (50, [0; 0; 0])]%Z.
  Definition xs_fs : list (Z * list F) := [(20%Z, [f0; q (-1) 1; f0; q 1 1; f0; f0])].
  Definition xs_ms : list (member F) :=
    [Mb 3 10 20 UmatEl [q 1 1; f0; f0] [f1]; Mb 1 20 50 UmatPl [q 1 1; q 1 10; q 1 50] [f1]].
  (** Other bar order, the first bar turned. *)
  Definition xs_ms2 : list (member F) :=
    [Mb 1 20 50 UmatPl [q 1 1; q 1 10; q 1 50] [f1]; Mb 3 20 10 UmatEl [q 1 1; f0; f0] [f1]].
  Definition xs_at mv (eh : elemH F) (st : settings F) : model F :=
    Model (add_nodes None (xs_ns mv)) (Some eh)
      (Some (BoundH (map fst xs_bs) (UMat 3 (map snd xs_bs)))) (Some (ForceH (map fst xs_fs) 6 (map snd xs_fs))) st None.
  Definition xs_elems : elemH F :=
    ElemH [3; 1]%Z [(10, 20); (20, 50)]%Z [1; 1]%Z [1; 2]%Z
      (Tab false 3 [[q 1 1; f0; f0]; [q 1 1; q 1 10; q 1 50]]) (Tab false 1 [[f1]; [f1]]).
  Definition xs_elems2 : elemH F :=
    ElemH [1; 3]%Z [(20, 50); (20, 10)]%Z [1; 1]%Z [2; 1]%Z
      (Tab false 3 [[q 1 1; q 1 10; q 1 50]; [q 1 1; f0; f0]]) (Tab false 1 [[f1]; [f1]]).

  Lemma xs_described mv st : described (xs_at mv xs_elems st) (xs_ns mv) xs_ms xs_bs xs_fs /\
    described (xs_at mv xs_elems2 st) (xs_ns mv) xs_ms2 xs_bs xs_fs.
  Proof.
    split; (unfold described; split; [split; reflexivity|]; split;
    [ split; [reflexivity|]; split; [reflexivity|]; repeat constructor |];
    split; [ split; [reflexivity|]; split; [reflexivity|]; repeat constructor |];
    split; [ eexists; split; [reflexivity|]; repeat split |];
    split; [cbn; lia|];
    split; [ repeat constructor; cbn; intros H; repeat destruct H as [H|H]; try discriminate; auto |];
    split; [ repeat constructor; cbn; intros H; repeat destruct H as [H|H]; try discriminate; auto |];
    split; [ cbn; intros r [<-|[<-|[<-|[]]]]; reflexivity |];
    intros b [<-|[<-|[]]]; cbn; repeat split; auto; discriminate).
  Qed.

  Lemma xs_redrawn mv eh st : redrawn xs_rho mv (xr_at st) (xs_at mv eh st) xr_ns (xs_ns mv) xr_bs xs_bs xr_fs xs_fs.
  Proof.
    split. { intros a b _ _ H. unfold xs_rho. lia. }
    split. { change (Permutation (xs_ns mv) [(10%Z, mv (V3 f0 f0 f0)); (50%Z, mv (V3 (q 3 1) (q 8 1) f0)); (20%Z, mv (V3 (q 3 1) (q 4 1) f0))]).
      apply perm_swap. }
    split. { change (Permutation xs_bs [(10, [0; 0; 0]); (50, [0; 0; 0]); (20, [1; 1; 0])]%Z).
      apply (Permutation_middle [(10, [0; 0; 0]); (50, [0; 0; 0])]%Z []). }
    split; [apply Permutation_refl|]. split; [reflexivity|]. split; [right; discriminate|reflexivity].
  Qed.
End Sample.

(** The actions succeed and at least [k] results are listed. *)
Definition xs_test (r : res (model fix_ * list msg)) (k : nat) : bool :=
  match r with Ok (m1, _) => on_built false (fun u => Nat.leb k (length (u_R u))) m1 | _ => false end.
Lemma xs_passed r k : xs_test r k = true -> exists m1 out u, r = Ok (m1, out) /\ m_built m1 = Some u /\ k <= length (u_R u).
Proof.
  unfold xs_test, on_built. destruct r as [[m1 out]| |]; try discriminate.
  destruct (m_built m1) as [u|] eqn:Eu; try discriminate. intros H. apply Nat.leb_le in H. eauto 10.
Qed.

Definition xs_st : settings fix_ := xr_settings 8 8 true false None 8 3 2.
Definition xs_acts : list (action fix_) := [ARun 40; ASet (xr_settings 8 8 true true (Some 2%Z) 8 2 2); ARun 40].
Lemma xs_tested : xs_test (build_and_play argsort_fx gauss argsort_ins (xr_at xs_st) xs_acts) 6 = true.
Proof. vm_compute. reflexivity. Qed.

Example C45_names_meets : exists m1 m1' out u,
  build_and_play argsort_fx gauss argsort_ins (xr_at xs_st) xs_acts = Ok (m1, out) /\
  build_and_play argsort_fx gauss argsort_ins (xs_at (fun x => x) xs_elems xs_st) xs_acts = Ok (m1', out) /\
  m_built m1 = Some u /\ m_built m1' = Some u /\ 6 <= length (u_R u).
Proof.
  destruct (xs_passed (build_and_play argsort_fx gauss argsort_ins (xr_at xs_st) xs_acts) 6 xs_tested) as (m1 & out & u & E & Eu & H).
  assert (H45 := C45_names fix_ _ argsort_ins argsort_fx gauss xs_rho (xr_at xs_st) (xs_at (fun x => x) xs_elems xs_st)
    xr_ns (xs_ns (fun x => x)) xr_ms xs_ms xr_bs xs_bs xr_fs xs_fs xs_acts m1 out argsort_ins_ok
    (xr_described xs_st) (proj1 (xs_described (fun x => x) xs_st))).
  assert (H1 := xs_redrawn (fun x : v3 fix_ => x) xs_elems xs_st).
  assert (H2 : Forall2 (same_bar xs_rho) (xr_ms (F:=fix_)) xs_ms).
  { constructor; [repeat split; reflexivity|]. constructor; [repeat split; reflexivity|constructor]. }
  destruct (H45 H1 H2 E) as (m1' & E' & Eb).
  exists m1, m1', out, u. rewrite Eb. auto.
Qed.

(** Two bars over the reals: moved, renamed, listed in the other order, one turned. *)
Example C44_redrawn_meets : exists (m m' : model R) p ns ns' ms ms' bs bs' fs fs' m1 out,
  described m ns ms bs fs /\ described m' ns' ms' bs' fs' /\
  redrawn xs_rho (fun x => vadd x (V3 1 2 3)%R) m m' ns ns' bs bs' fs fs' /\
  bars_by (fun b b' => same_bar xs_rho b b' \/ turned_bar xs_rho b b') p ms ms' /\
  p = [1; 0] /\ length ms = 2 /\ build_and_play sort2 cramer argsort_ins m [] = Ok (m1, out).
Proof.
  pose (st := ex_settings 2 3).
  assert (Hm : exists m1 out, build_and_play sort2 cramer argsort_ins (xr_at st) [] = Ok (m1, out)).
  { unfold build_and_play. cbn [play].
    match goal with |- exists _ _, bind ?b _ = _ => destruct b as [mb|e|] eqn:E end; [cbn [bind]; eauto| |];
      exfalso; revert E; lazy; discriminate. }
  destruct Hm as (m1 & out & Hm1).
  exists (xr_at st), (xs_at (fun x => vadd x (V3 1 2 3)%R) xs_elems2 st), [1; 0], xr_ns, (xs_ns (fun x => vadd x (V3 1 2 3)%R)),
    xr_ms, xs_ms2, xr_bs, xs_bs, xr_fs, xs_fs.
  exists m1, out. split; [apply xr_described|]. split; [apply xs_described|]. split; [apply xs_redrawn|].
  split. { split; [apply perm_swap|]. constructor; [|constructor; [|constructor]].
    - exists (Mb 9 2 5 UmatPl [q 1 1; q 1 10; q 1 50] [f1]). split; [reflexivity|]. left. repeat split; reflexivity.
    - exists (Mb 7 1 2 UmatEl [q 1 1; f0; f0] [f1]). split; [reflexivity|]. right. repeat split; reflexivity. }
  split; [reflexivity|]. split; [reflexivity|].
  exact Hm1.
Qed.

Lemma Forall2_nth_error {A B} (P : A -> B -> Prop) l l' : Forall2 P l l' ->
  forall k a, nth_error l k = Some a -> exists b, nth_error l' k = Some b /\ P a b.
Proof.
  induction 1 as [|x y l l' Hxy H IH]; intros [|k] a E; cbn in E; try discriminate; cbn [nth_error]; eauto.
  injection E as <-. eauto.
Qed.

(** The bar of PropBar.v through its three increments: moved, renamed and turned. *)
Definition xs_bar (st : settings R) : model R :=
  Model (Some (NodeH [8; 4]%Z [V3 11 24 33; V3 11 22 33]%R))
    (Some (ElemH [6]%Z [(8, 4)]%Z [1]%Z [1]%Z (Tab false 1 [[3%R]]) (Tab false 1 [[2%R]])))
    (Some (BoundH [8; 4]%Z (UMat 3 [[0; 1; 0]; [0; 0; 0]]%Z)))
    (Some (ForceH [8]%Z 3 [[0; 1; 0]%R])) st None.

Example C44_run_meets : exists m1 m1' out u u' a a',
  build_and_play sort2 cramer argsort_ins (bar_model 1 (V3 1 2 3)%R 2 3 2 1 (ex_settings 2 3)) [ARun 1] = Ok (m1, out) /\
  build_and_play sort2 cramer argsort_ins (xs_bar (ex_settings 2 3)) [ARun 1] = Ok (m1', out) /\
  m_built m1 = Some u /\ m_built m1' = Some u' /\
  nth_error (u_R u) 3 = Some a /\ nth_error (u_R u') 3 = Some a' /\
  a_lpf a' = (3/4)%R /\ a_U a' = [vzero; V3 0 (1/4) 0]%R /\ a_force a' = [(3/4)%R].
Proof.
  destruct C41_session_meets as (m1 & m2 & out & u2 & a & E1 & E2 & E3 & E4 & E5 & E6 & E7).
  assert (E : build_and_play sort2 cramer argsort_ins (bar_model 1 (V3 1 2 3)%R 2 3 2 1 (ex_settings 2 3)) [ARun 1] = Ok (m2, out)).
  { unfold build_and_play. rewrite E1. cbn [bind play]. rewrite E2. cbn [bind]. rewrite app_nil_r. reflexivity. }
  destruct (C44_redrawn argsort_ins sort2 cramer (fun z => 4 * z)%Z (V3 10 20 30)%R _ (xs_bar (ex_settings 2 3)) _
    [(8%Z, V3 11 24 33); (4%Z, V3 11 22 33)]%R _ [Mb 6 8 4 UmatEl [3%R] [2%R]] _
    [(8, [0; 1; 0]); (4, [0; 0; 0])]%Z _ [(8%Z, [0; 1; 0]%R)] [0] [ARun 1] m2 out argsort_ins_ok
    (bar_described 1 (V3 1 2 3)%R 2 3 2 1 (ex_settings 2 3) ltac:(lia))) as (m2' & E' & u & u' & Eu & Eu' & HR & _); auto.
  - unfold described. split; [split; reflexivity|]. split.
    { split; [reflexivity|]. split; [reflexivity|]. repeat constructor. }
    split. { split; [reflexivity|]. split; [reflexivity|]. repeat constructor. }
    split. { eexists. split; [reflexivity|]. repeat split. }
    split; [cbn; lia|].
    split. { cbn [map fst]. constructor; [intros [H|[]]; discriminate|constructor; [intros []|constructor]]. }
    split. { cbn [map mb_label]. constructor; [intros []|constructor]. }
    split. { cbn. intros r [<-|[<-|[]]]; reflexivity. }
    intros b [<-|[]]; cbn; repeat split; auto; discriminate.
  - split. { intros x y _ _ H. lia. }
    split. { cbn. replace (vadd (V3 1 2 3) (V3 10 20 30))%R with (V3 11 22 33)%R by (unfold vadd, vmap2; cbn; f_equal; numR; lra).
      replace (vadd (vadd (V3 1 2 3) (V3 0 2 0)) (V3 10 20 30))%R with (V3 11 24 33)%R by (unfold vadd, vmap2; cbn; f_equal; numR; lra).
      apply perm_swap. }
    split; [apply perm_swap|]. split; [apply Permutation_refl|]. split; [reflexivity|]. split; [right; discriminate|reflexivity].
  - split; [apply Permutation_refl|]. constructor; [|constructor]. exists (Mb 1 1 2 UmatEl [3%R] [2%R]). split; [reflexivity|].
    right. repeat split; reflexivity.
  - assert (u = u2) by congruence. subst u.
    destruct (Forall2_nth_error _ _ _ HR 3 a E4) as (a' & Ea' & HS).
    destruct HS as (_ & S1 & _ & _ & _ & _ & _ & _ & _ & _ & S2 & _ & _ & _ & _ & _ & _ & _ & _ & S3 & _).
    exists m2, m2', out, u2, u', a, a'. do 6 (split; [assumption|]). rewrite S1, S2, E5, E6. do 2 (split; [reflexivity|]).
    rewrite E7 in S3. apply (picks_seq [(3/4)%R]) in S3. exact S3.
Qed.
