(** * C31: where the locked component is after so many increments *)
From Coq Require Import List ZArith Bool Arith Lia Reals Lra.
Import ListNotations.
From Verif Require Import Num NumR NumFix Vec Handlers Material Analysis Truss Equil Solver Run ListFacts SpecMech SpecMechR SpecBuild SpecSolver
  SpecState SpecRun SpecRunR RunFacts RunProps EditFacts ExRun PropRun PropBar.
Local Open Scope R_scope.

(** Without adaptive step control the locked component is, after the [q]-th converged
    increment of a step, [q] step limits further than at the start of the step, up to
    [q] times the tolerance; for the load factor, which starts every step at zero, it
    is [q * dlpf]. *)
Theorem C31_schedule : forall argsortZ argsortF solve P m ns ms bs fs m1 fuel m2 out logs j,
  argsort_ok argsortZ -> described m ns ms bs fs -> session argsortF solve argsortZ P m m1 ->
  ran_as argsortF solve m1 fuel m2 out logs ->
  (forall u, m_built m1 = Some u -> (1 <= u_ndof1 u)%nat) ->
  let st := m_set m1 in
  s_jfixed st = true -> s_j0 st = Some j -> j <> 0%Z -> s_stepcontrol st = false ->
  exists u1, m_built m1 = Some u1 /\
  forall lg, In lg logs -> exists recs, good_part lg recs /\
    forall q x a, nth_error recs q = Some (x, a) ->
      let k := (Z.to_nat (Z.abs j) - 1)%nat in
      exists s xq, nth_error (a_Ured (lg_start lg) ++ [0]) k = Some s /\ nth_error x k = Some xq /\ (k <= u_ndof1 u1)%nat /\
        Rabs (xq - (s + INR (S q) * (IZR (Z.sgn j) * (if (k <? u_ndof1 u1)%nat then s_du st else s_dlpf st))))
          < INR (S q) * powerRZ 10 (- s_ftol st).
Proof.
  intros argsortZ argsortF solve P m ns ms bs fs m1 fuel m2 out logs j HA Hd HS HL H1 st Hf Hj Hj0 Hsc.
  destruct (C31_amount _ _ _ _ _ _ _ _ _ _ _ _ _ _ _ HA Hd HS HL H1 Hf Hj Hj0 Hsc) as (u1 & E1 & H).
  exists u1. split; [exact E1|]. intros lg Hin. destruct (H lg Hin) as (recs & Hg & Hal). exists recs. split; [exact Hg|].
  cbv zeta in Hal |- *. fold st in Hal. change (@f0 R _) with 0 in Hal.
  set (k := (Z.to_nat (Z.abs j) - 1)%nat) in *. set (d := if (k <? u_ndof1 u1)%nat then s_du st else s_dlpf st) in *.
  set (tol := powerRZ 10 (- s_ftol st)) in *.
  clear H Hg Hin HL HS Hd. revert Hal. generalize (a_Ured (lg_start lg) ++ [0]) as x0. generalize (lg_start lg) as a0.
  induction recs as [|[y b] recs IH]; intros a0 x0 Hal q x a Hq; [destruct q; discriminate|].
  cbn [along] in Hal. destruct Hal as [(x0j & yj & A1 & A2 & A3 & A4) Hal].
  destruct q as [|q]; cbn [nth_error] in Hq.
  - injection Hq as <- <-. exists x0j, yj. split; [exact A1|]. split; [exact A2|]. split; [exact A3|]. cbn [INR].
    rewrite !Rmult_1_l. exact A4.
  - destruct (IH b y Hal q x a Hq) as (s & xq & B1 & B2 & B3 & B4). assert (s = yj) by congruence. subst s.
    exists x0j, xq. split; [exact A1|]. split; [exact B2|]. split; [exact A3|].
    rewrite (S_INR (S q)).
    replace (xq - (x0j + (INR (S q) + 1) * (IZR (Z.sgn j) * d)))
      with ((xq - (yj + INR (S q) * (IZR (Z.sgn j) * d))) + (yj - (x0j + IZR (Z.sgn j) * d))) by ring.
    eapply Rle_lt_trans; [apply Rabs_triang|]. lra.
Qed.
Print Assumptions C31_schedule.

(** The bar of PropBar.v, pulled in three steps of the load factor. *)
Example C31_schedule_meets : exists (m m1 m2 : model R) out lg u1 ns ms bs fs x a s xq,
  described m ns ms bs fs /\ session sort2 cramer argsort_ins (fun _ => True) m m1 /\
  ran_as sort2 cramer m1 1 m2 out [lg] /\ m_built m1 = Some u1 /\ (1 <= u_ndof1 u1)%nat /\
  s_jfixed (m_set m1) = true /\ s_j0 (m_set m1) = Some 2%Z /\ s_stepcontrol (m_set m1) = false /\
  nth_error (lg_recs lg) 2 = Some (x, a) /\ nth_error (a_Ured (lg_start lg) ++ [0]) 1 = Some s /\ nth_error x 1 = Some xq /\
  Rabs (xq - (s + 3 * (1 * (if (1 <? u_ndof1 u1)%nat then s_du (m_set m1) else s_dlpf (m_set m1))))) < 3 * powerRZ 10 (- s_ftol (m_set m1)).
Proof.
  destruct exact_runs_meet as (m & m1 & m2 & out & lg & u1 & ns & ms & bs & fs & H1 & H2 & H3 & H4 & H5 & H6 & H7 & H8 & _ & _ & H9 & H10).
  assert (H1' : forall u, m_built m1 = Some u -> (1 <= u_ndof1 u)%nat) by (intros u Hu; rewrite H4 in Hu; injection Hu as <-; exact H5).
  destruct (C31_schedule _ _ _ _ _ _ _ _ _ _ _ _ _ _ _ argsort_ins_ok H1 H2 H3 H1' H6 H7 ltac:(discriminate) H8) as (u & E & H).
  rewrite H4 in E. injection E as <-. destruct (H lg (or_introl eq_refl)) as (recs & Hg & Hq).
  assert (recs = lg_recs lg).
  { destruct Hg as [[-> _]|(p & l & e & _ & G2 & G3)]; [reflexivity|]. exfalso.
    destruct H10 as [[_ N]|(p' & l' & e' & N & _)].
    - apply (N e); [rewrite G2; apply in_app_iff; right; left; reflexivity|exact G3].
    - assert (L := f_equal (@length _) N). rewrite app_length in L. cbn in L. lia. }
  subst recs. destruct (nth_error (lg_recs lg) 2) as [[x a]|] eqn:Er; [|apply nth_error_None in Er; lia].
  destruct (Hq 2%nat x a Er) as (s & xq & Q1 & Q2 & _ & Q4). change (Z.to_nat (Z.abs 2) - 1)%nat with 1%nat in *.
  exists m, m1, m2, out, lg, u1, ns, ms, bs, fs, x, a, s, xq. 
  repeat (split; [assumption|]). replace (INR 3) with 3 in Q4 by (cbn; lra). exact Q4.
Qed.
