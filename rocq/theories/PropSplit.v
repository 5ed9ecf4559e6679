(** * C62 bars side by side

    A bar may be replaced by several bars between the same nodes, of the same
    material, whose cross sections add up to its own, and back: the truss does not
    notice.  Parts with cross section zero may be added or left out.  In exact
    arithmetic.  Vocabulary: SpecSplit.v, SpecSame.v, SpecRun.v. *)
From Coq Require Import List ZArith Bool Arith Lia Permutation Reals Lra.
Import ListNotations.
From Verif Require Import Num NumR Vec Handlers Material Analysis Truss Equil Solver Run SpecMech SpecMechR
  SpecBuild SpecRun SpecBar EditFacts SpecSame SpecSplit SplitRun NumFix ExRun PropBar PropSame.
Local Open Scope R_scope.

(** Whatever runs and changes of settings follow: if they succeed for the truss [m]
    they succeed for the split truss [m'], print the same lines and give the same
    displacements, reactions and load factors; the force of a bar is shared among its
    parts in proportion to their cross sections. *)
Theorem C62_split : forall argsortZ argsortF solve m m' ns ns' ms ms' bs bs' fs fs' own acts m1 out,
  argsort_ok argsortZ -> described m ns ms bs fs -> described m' ns' ms' bs' fs' ->
  same_but_bars m m' -> split_by own ms ms' ->
  build_and_play argsortF solve argsortZ m acts = Ok (m1, out) ->
  exists m1', build_and_play argsortF solve argsortZ m' acts = Ok (m1', out) /\ split_results own ms' m1 m1'.
Proof.
  intros argsortZ argsortF solve m m' ns ns' ms ms' bs bs' fs fs' own acts m1 out HA Hd Hd' Hs Hsp H.
  eapply split_play; eassumption.
Qed.
Print Assumptions C62_split.

(** And the other way round: what succeeds for the split truss succeeds for the truss. *)
Theorem C62_merged : forall argsortZ argsortF solve m m' ns ns' ms ms' bs bs' fs fs' own acts m1' out,
  argsort_ok argsortZ -> described m ns ms bs fs -> described m' ns' ms' bs' fs' ->
  same_but_bars m m' -> split_by own ms ms' ->
  build_and_play argsortF solve argsortZ m' acts = Ok (m1', out) ->
  exists m1, build_and_play argsortF solve argsortZ m acts = Ok (m1, out) /\ split_results own ms' m1 m1'.
Proof.
  intros argsortZ argsortF solve m m' ns ns' ms ms' bs bs' fs fs' own acts m1' out HA Hd Hd' Hs Hsp H.
  eapply merged_play; eassumption.
Qed.
Print Assumptions C62_merged.

(** ** The hypotheses are met *)
(** The two bars of the sample truss, the plastic one split in parts 1/4 and 3/4,
    the elastic one with a part of cross section zero, in mixed order. *)
Definition xp_ms : list (member R) :=
  [Mb 4 2 5 UmatPl [q 1 1; q 1 10; q 1 50] [1/4]; Mb 7 1 2 UmatEl [q 1 1; f0; f0] [1];
   Mb 9 2 5 UmatPl [q 1 1; q 1 10; q 1 50] [3/4]; Mb 2 1 2 UmatEl [q 1 1; f0; f0] [0]].
Definition xp_at (st : settings R) : model R :=
  let m := xr_at st in
  Model (m_nodes m) (Some (ElemH [4; 7; 9; 2]%Z [(2, 5); (1, 2); (2, 5); (1, 2)]%Z [1; 1; 1; 1]%Z [2; 1; 2; 1]%Z
      (Tab false 3 [[q 1 1; q 1 10; q 1 50]; [q 1 1; f0; f0]; [q 1 1; q 1 10; q 1 50]; [q 1 1; f0; f0]])
      (Tab false 1 [[1/4]; [1]; [3/4]; [0]])))
    (m_bounds m) (m_forces m) st None.

Lemma xp_split : split_by [1; 0; 1; 0]%nat xr_ms xp_ms.
Proof.
  split.
  - repeat (constructor; [eexists; split; [reflexivity|]; repeat split; try reflexivity; discriminate|]). constructor.
  - intros [|[|i]] b Hb; cbn in Hb; try (destruct i; discriminate); injection Hb as <-;
      (split; [cbn; auto|]); unfold total, area, rsum; cbn; numR; lra.
Qed.

Lemma xp_described st : described (xp_at st) xr_ns xp_ms xr_bs xr_fs.
Proof.
  destruct (xr_described (F:=R) st) as (D1 & D2 & D3 & _ & D5 & D6 & _ & D8 & D9).
  do 3 (split; [assumption|]). split; [eexists; split; [reflexivity|]; repeat split|]. do 2 (split; [assumption|]).
  split. { repeat constructor; cbn; intros H; repeat destruct H as [H|H]; try discriminate; auto. }
  split; [exact D8|]. intros b [<-|[<-|[<-|[<-|[]]]]]; cbn; repeat split; auto; discriminate.
Qed.

Example C62_split_meets : exists (m m' : model R) ns ms ms' bs fs own m1 out,
  described m ns ms bs fs /\ described m' ns ms' bs fs /\ same_but_bars m m' /\ split_by own ms ms' /\
  length ms = 2%nat /\ length ms' = 4%nat /\ build_and_play sort2 cramer argsort_ins m [] = Ok (m1, out).
Proof.
  pose (st := ex_settings 2 3).
  assert (Hm : exists m1 out, build_and_play sort2 cramer argsort_ins (xr_at st) [] = Ok (m1, out)).
  { unfold build_and_play. cbn [play].
    match goal with |- exists _ _, bind ?b _ = _ => destruct b as [mb|e|] eqn:E end; [cbn [bind]; eauto| |];
      exfalso; revert E; lazy; discriminate. }
  destruct Hm as (m1 & out & Hm1).
  exists (xr_at st), (xp_at st), xr_ns, xr_ms, xp_ms, xr_bs, xr_fs, [1; 0; 1; 0]%nat, m1, out.
  split; [apply xr_described|]. split; [apply xp_described|]. split; [repeat split|]. split; [apply xp_split|].
  split; [reflexivity|]. split; [reflexivity|]. exact Hm1.
Qed.

(** The bar of PropBar.v (cross section 2) through its three increments, as parts
    1/2, 0 and 3/2. *)
Definition xp_bar (st : settings R) : model R :=
  let m := bar_model 1 (V3 1 2 3) 2 3 2 1 st in
  Model (m_nodes m) (Some (ElemH [1; 2; 3]%Z [(1, 2); (1, 2); (1, 2)]%Z [1; 1; 1]%Z [1; 1; 1]%Z
      (Tab false 1 [[3]; [3]; [3]]) (Tab false 1 [[1/2]; [0]; [3/2]])))
    (m_bounds m) (m_forces m) st None.

Example C62_merged_meets : exists m1 m1' out u u' a a',
  build_and_play sort2 cramer argsort_ins (bar_model 1 (V3 1 2 3) 2 3 2 1 (ex_settings 2 3)) [ARun 1] = Ok (m1, out) /\
  build_and_play sort2 cramer argsort_ins (xp_bar (ex_settings 2 3)) [ARun 1] = Ok (m1', out) /\
  split_results [0; 0; 0]%nat [Mb 1 1 2 UmatEl [3] [1/2]; Mb 2 1 2 UmatEl [3] [0]; Mb 3 1 2 UmatEl [3] [3/2]] m1 m1' /\
  m_built m1 = Some u /\ m_built m1' = Some u' /\
  nth_error (u_R u) 3 = Some a /\ nth_error (u_R u') 3 = Some a' /\
  a_lpf a' = 3/4 /\ a_U a' = [vzero; V3 0 (1/4) 0] /\ a_force a = [3/4] /\ a_force a' = [3/16; 0; 9/16].
Proof.
  destruct C41_session_meets as (m1 & m2 & out & u2 & a & E1 & E2 & E3 & E4 & E5 & E6 & E7).
  assert (E : build_and_play sort2 cramer argsort_ins (bar_model 1 (V3 1 2 3) 2 3 2 1 (ex_settings 2 3)) [ARun 1] = Ok (m2, out)).
  { unfold build_and_play. rewrite E1. cbn [bind play]. rewrite E2. cbn [bind]. rewrite app_nil_r. reflexivity. }
  pose proof (bar_described 1 (V3 1 2 3) 2 3 2 1 (ex_settings 2 3) ltac:(lia)) as Hd.
  destruct (C62_split argsort_ins sort2 cramer _ (xp_bar (ex_settings 2 3)) _ [(1%Z, V3 1 2 3); (2%Z, vadd (V3 1 2 3) (along_axis 1 2))] _
    [Mb 1 1 2 UmatEl [3] [1/2]; Mb 2 1 2 UmatEl [3] [0]; Mb 3 1 2 UmatEl [3] [3/2]] _ [(1%Z, [0; 0; 0]%Z); (2%Z, set_nth 1 1%Z [0; 0; 0]%Z)]
    _ [(2%Z, set_nth 1 1 [0; 0; 0])] [0; 0; 0]%nat [ARun 1] m2 out argsort_ins_ok Hd) as (m2' & E' & HRes).
  - destruct Hd as (D1 & D2 & D3 & _ & D5 & D6 & _ & D8 & D9).
    split; [exact D1|]. split; [exact D2|]. split; [exact D3|]. split; [eexists; split; [reflexivity|]; repeat split|].
    split; [exact D5|]. split; [exact D6|].
    split. { clear. repeat constructor; cbn; intros H; repeat destruct H as [H|H]; try discriminate; auto. }
    split; [exact D8|]. clear. intros b [<-|[<-|[<-|[]]]]; cbn; repeat split; auto; discriminate.
  - split; [reflexivity|]. split; [reflexivity|]. split; reflexivity.
  - split.
    + clear. repeat (constructor; [eexists; split; [reflexivity|]; repeat split; try reflexivity; discriminate|]). constructor.
    + clear. intros [|i] b Hb; cbn in Hb; try (destruct i; discriminate); injection Hb as <-;
        (split; [cbn; auto|]); unfold total, area, rsum; cbn; lra.
  - exact E.
  - pose proof HRes as (u & u' & Eu & Eu' & HR & _). assert (u = u2) by congruence. subst u.
    destruct (Forall2_nth_error _ _ _ HR 3%nat a E4) as (a' & Ea' & HS).
    exists m2, m2', out, u2, u', a, a'. do 7 (split; [assumption|]).
    destruct HS as (_ & S1 & _ & _ & _ & _ & _ & _ & _ & _ & S2 & _ & _ & _ & _ & _ & _ & _ & _ & S3 & _ & S4 & S5).
    rewrite S1, S2, E5, E6. do 2 (split; [reflexivity|]). split; [exact E7|].
    assert (Hy : exists y, a_stress a' = [y; y; y]).
    { clear - S3. revert S3. generalize (a_stress a') as ss. intros ss S3.
      inversion S3 as [|x1 y1 l1 k1 Hy1 S31]; subst. inversion S31 as [|x2 y2 l2 k2 Hy2 S32]; subst.
      inversion S32 as [|x3 y3 l3 k3 Hy3 S33]; subst. inversion S33; subst.
      exists y1. repeat f_equal; congruence. }
    destruct Hy as (y & Hy). rewrite Hy in S4. cbn in S4. specialize (S5 0%nat (3/4)). rewrite E7, S4 in S5. specialize (S5 eq_refl).
    unfold total, rsum in S5. cbn in S5. assert (E9 : y = 3 / 8) by lra.
    rewrite S4, E9. f_equal; [lra|f_equal; [lra|f_equal; lra]].
Qed.
