(** * C72 stiffer and thinner

    A bar may be replaced by a thinner bar of a stiffer (and stronger) material, or
    the other way round: as long as modulus times cross section (and hardening modulus
    and yield stress times cross section) stays the same, the truss moves in the same
    way under the same loads.  In exact arithmetic.  Vocabulary: SpecTrade.v,
    SpecSplit.v, SpecSame.v, SpecRun.v. *)
From Coq Require Import List ZArith Bool Arith Lia Reals Lra.
Import ListNotations.
From Verif Require Import Num NumR Vec Handlers Material Analysis Truss Equil Solver Run SpecMech SpecMechR
  SpecBuild SpecRun SpecBar EditFacts SpecSame SpecSplit SpecUnit SpecTrade SplitRun TradeFacts NumFix ExRun PropBar PropSame PropSplit.
Local Open Scope R_scope.

(** Whatever runs and changes of settings follow: if they succeed for the truss [m]
    they succeed for the truss [m'], print the same lines and give the same results;
    only the stresses and the yield stresses of the bars are multiplied by their
    factors.  (The other direction is the same theorem with the factors 1/t.) *)
Theorem C72_traded : forall argsortZ argsortF solve m m' ns ns' ms ms' bs bs' fs fs' ts acts m1 out,
  argsort_ok argsortZ -> described m ns ms bs fs -> described m' ns' ms' bs' fs' ->
  same_but_bars m m' -> traded_by ts ms ms' ->
  build_and_play argsortF solve argsortZ m acts = Ok (m1, out) ->
  exists m1', build_and_play argsortF solve argsortZ m' acts = Ok (m1', out) /\ traded_results ts m1 m1'.
Proof.
  intros argsortZ argsortF solve m m' ns ns' ms ms' bs bs' fs fs' ts acts m1 out HA Hd Hd' Hs Hsp H.
  eapply trade_play; eassumption.
Qed.
Print Assumptions C72_traded.

(** So whether the bars are traded or not, the session succeeds or not. *)
Theorem C72_either : forall argsortZ argsortF solve m m' ns ns' ms ms' bs bs' fs fs' ts acts,
  argsort_ok argsortZ -> described m ns ms bs fs -> described m' ns' ms' bs' fs' ->
  same_but_bars m m' -> traded_by ts ms ms' ->
  (exists r, build_and_play argsortF solve argsortZ m acts = Ok r) <->
  (exists r, build_and_play argsortF solve argsortZ m' acts = Ok r).
Proof.
  intros argsortZ argsortF solve m m' ns ns' ms ms' bs bs' fs fs' ts acts HA Hd Hd' Hs Hsp.
  split; intros ([m1 out] & H).
  - destruct (C72_traded argsortZ argsortF solve _ _ _ _ _ _ _ _ _ _ _ _ _ _ HA Hd Hd' Hs Hsp H) as (m1' & H' & _). eauto.
  - assert (Hs' : same_but_bars m' m) by (destruct Hs as (A1 & A2 & A3 & A4); repeat split; auto).
    destruct (C72_traded argsortZ argsortF solve _ _ _ _ _ _ _ _ _ _ _ _ _ _ HA Hd' Hd Hs' (traded_back _ _ _ Hsp) H) as (m1' & H' & _). eauto.
Qed.
Print Assumptions C72_either.

(** For elastic bars the product of modulus and cross section is all that counts. *)
Theorem C72_elastic : forall argsortZ argsortF solve m m' ns ns' ms ms' bs bs' fs fs' acts m1 out,
  argsort_ok argsortZ -> described m ns ms bs fs -> described m' ns' ms' bs' fs' -> same_but_bars m m' ->
  Forall2 (fun b b' => mb_a b' = mb_a b /\ mb_b b' = mb_b b /\ mb_law b = UmatEl /\ mb_law b' = UmatEl /\
    exists E E' r r' A A' g g', mb_mat b = E :: r /\ mb_mat b' = E' :: r' /\ mb_geo b = A :: g /\ mb_geo b' = A' :: g' /\
      0 < E /\ 0 < E' /\ E * A = E' * A') ms ms' ->
  build_and_play argsortF solve argsortZ m acts = Ok (m1, out) ->
  exists m1' u u', build_and_play argsortF solve argsortZ m' acts = Ok (m1', out) /\
    m_built m1 = Some u /\ m_built m1' = Some u' /\
    Forall2 (fun a a' => a_U a' = a_U a /\ a_lpf a' = a_lpf a /\ a_r a' = a_r a /\ a_force a' = a_force a /\ a_stretch a' = a_stretch a)
      (u_R u) (u_R u').
Proof.
  intros argsortZ argsortF solve m m' ns ns' ms ms' bs bs' fs fs' acts m1 out HA Hd Hd' Hs Hb H.
  assert (G : exists ts, traded_by ts ms ms').
  { clear - Hb. induction Hb as [|b b' ms ms' (Ea & Eb & Ew & Ew' & E & E' & r & r' & A & A' & g & g' & M1 & M2 & G1 & G2 & P1 & P2 & EA) _ (ts & IH)].
    - exists []. constructor.
    - exists (E' / E :: ts). constructor; [|exact IH]. unfold traded, area. rewrite Ea, Eb, Ew, Ew', M1, M2, G1, G2. cbn.
      split; [apply Rdiv_lt_0_compat; assumption|]. do 3 (split; [reflexivity|]). split; [f_equal; field; lra|].
      do 2 (split; [discriminate|]). apply Rmult_eq_reg_l with E; [|lra]. rewrite EA. field. lra. }
  destruct G as (ts & Hts).
  destruct (C72_traded argsortZ argsortF solve _ _ _ _ _ _ _ _ _ _ _ _ _ _ HA Hd Hd' Hs Hts H) as (m1' & H' & u & u' & Eu & Eu' & HR & _).
  exists m1', u, u'. do 3 (split; [assumption|]). clear - HR.
  induction HR as [|a a' l l' (_ & E2 & _ & E4 & _ & _ & _ & _ & _ & _ & E11 & _ & _ & _ & _ & _ & _ & _ & E19 & E20 & _) _ IH]; constructor; auto.
Qed.
Print Assumptions C72_elastic.

(** ** The hypotheses are met *)
(** The bar of PropBar.v (modulus 3, cross section 2) and a bar with modulus 6 and
    cross section 1: the same displacement 1/4 and force 3/4 at the load factor 3/4;
    the stress is 3/8 in the one and 3/4 in the other. *)
Example C72_elastic_meets : exists m1 m1' out u u' a a',
  build_and_play sort2 cramer argsort_ins (bar_model 1 (V3 1 2 3) 2 3 2 1 (ex_settings 2 3)) [ARun 1] = Ok (m1, out) /\
  build_and_play sort2 cramer argsort_ins (bar_model 1 (V3 1 2 3) 2 6 1 1 (ex_settings 2 3)) [ARun 1] = Ok (m1', out) /\
  m_built m1 = Some u /\ m_built m1' = Some u' /\
  nth_error (u_R u) 3 = Some a /\ nth_error (u_R u') 3 = Some a' /\
  a_lpf a' = 3/4 /\ a_U a' = [vzero; V3 0 (1/4) 0] /\ a_force a' = [3/4] /\ a_stress a' = map2 Rmult [2] (a_stress a).
Proof.
  destruct C41_session_meets as (m1 & m2 & out & u2 & a & E1 & E2 & E3 & E4 & E5 & E6 & E7).
  assert (E : build_and_play sort2 cramer argsort_ins (bar_model 1 (V3 1 2 3) 2 3 2 1 (ex_settings 2 3)) [ARun 1] = Ok (m2, out)).
  { unfold build_and_play. rewrite E1. cbn [bind play]. rewrite E2. cbn [bind]. rewrite app_nil_r. reflexivity. }
  pose proof (bar_described 1 (V3 1 2 3) 2 3 2 1 (ex_settings 2 3) ltac:(lia)) as Hd.
  pose proof (bar_described 1 (V3 1 2 3) 2 6 1 1 (ex_settings 2 3) ltac:(lia)) as Hd'.
  assert (Hs : same_but_bars (bar_model 1 (V3 1 2 3) 2 3 2 1 (ex_settings 2 3)) (bar_model 1 (V3 1 2 3) 2 6 1 1 (ex_settings 2 3))).
  { split; [reflexivity|]. split; [reflexivity|]. split; reflexivity. }
  assert (Ht : traded_by [2] [Mb 1 1 2 UmatEl [3] [2]] [Mb 1 1 2 UmatEl [6] [1]]).
  { clear. constructor; [|constructor]. unfold traded, area. cbn. split; [lra|]. do 3 (split; [reflexivity|]).
    split; [f_equal; lra|]. do 2 (split; [discriminate|]). lra. }
  destruct (C72_traded argsort_ins sort2 cramer _ _ _ _ _ _ _ _ _ _ _ _ _ _ argsort_ins_ok Hd Hd' Hs Ht E) as (m2' & E' & u & u' & Eu & Eu' & HR & _).
  assert (u = u2) by congruence. subst u.
  destruct (Forall2_nth_error _ _ _ HR 3%nat a E4) as (a' & Ea' & HS).
  destruct HS as (_ & S1 & _ & _ & _ & _ & _ & _ & _ & _ & S2 & _ & _ & _ & _ & _ & _ & _ & _ & S3 & S4 & _).
  exists m2, m2', out, u2, u', a, a'. do 6 (split; [assumption|]). rewrite S1, S2, S3. auto.
Qed.

(** The two bars of the sample truss, the elastic one three times as stiff, the plastic
    one half as stiff and strong. *)
Definition xt_ms : list (member R) :=
  [Mb 7 1 2 UmatEl [3; f0; f0] [1/3]; Mb 9 2 5 UmatPl [q 1 2; q 1 20; q 1 100] [2]].
Definition xt_at (st : settings R) : model R :=
  let m := xr_at st in
  Model (m_nodes m) (Some (ElemH [7; 9]%Z [(1, 2); (2, 5)]%Z [1; 1]%Z [1; 2]%Z
      (Tab false 3 [[3; f0; f0]; [q 1 2; q 1 20; q 1 100]]) (Tab false 1 [[1/3]; [2]])))
    (m_bounds m) (m_forces m) st None.

Example C72_traded_meets : exists (m m' : model R) ns ms ms' bs fs ts m1 out,
  described m ns ms bs fs /\ described m' ns ms' bs fs /\ same_but_bars m m' /\ traded_by ts ms ms' /\ ts = [3; 1/2] /\
  map mb_law ms = [UmatEl; UmatPl] /\ build_and_play sort2 cramer argsort_ins m [] = Ok (m1, out).
Proof.
  pose (st := ex_settings 2 3).
  assert (Hm : exists m1 out, build_and_play sort2 cramer argsort_ins (xr_at st) [] = Ok (m1, out)).
  { unfold build_and_play. cbn [play].
    match goal with |- exists _ _, bind ?b _ = _ => destruct b as [mb|e|] eqn:E end; [cbn [bind]; eauto| |];
      exfalso; revert E; lazy; discriminate. }
  destruct Hm as (m1 & out & Hm1).
  exists (xr_at st), (xt_at st), xr_ns, xr_ms, xt_ms, xr_bs, xr_fs, [3; 1/2], m1, out.
  split; [apply xr_described|].
  split.
  { destruct (xr_described (F:=R) st) as (D1 & D2 & D3 & _ & D5 & D6 & _ & D8 & D9).
    do 3 (split; [assumption|]). split; [eexists; split; [reflexivity|]; repeat split|]. do 2 (split; [assumption|]).
    split. { repeat constructor; cbn; intros H; repeat destruct H as [H|H]; try discriminate; auto. }
    split; [exact D8|]. intros b [<-|[<-|[]]]; cbn; repeat split; auto; discriminate. }
  split; [repeat split|]. split; [|split; [reflexivity|]; split; [reflexivity|exact Hm1]].
  constructor; [|constructor; [|constructor]]; unfold traded, area; cbn; (split; [lra|]); do 3 (split; [reflexivity|]);
    (split; [repeat (f_equal; try (numR; lra))|]); do 2 (split; [discriminate|]); numR; lra.
Qed.
