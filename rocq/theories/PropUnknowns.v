(** * C25: the unknowns stored with a result *)
From Coq Require Import List ZArith Bool Arith Lia.
Import ListNotations.
From Verif Require Import Num NumFix Vec Handlers Material Analysis Truss Equil Solver Run ListFacts EditFacts SpecMech SpecBuild
  SpecSolver SpecState SpecRun RunFacts RecFacts SessionFacts RunProps StepFacts ReachFacts ExRun PropRun.

(** A result carries the solution vector three times: as a whole, as displacements
    without the last component, and the last component as load factor. *)
Definition carries {F} `{Num F} (x : list F) (a : analysis F) : Prop :=
  a_Vred a = x /\ (x <> [] -> x = a_Ured a ++ [a_lpf a]).

(** Every result of a run, converged or not, carries the solution vector of its
    increment. *)
Theorem C25_unknowns : forall F (NF : Num F) argsortF solve m1 fuel m2 out logs lg x a,
  ran_as argsortF solve m1 fuel m2 out logs -> In lg logs -> In (x, a) (lg_recs lg) -> carries x a.
Proof.
  intros F NF argsortF solve m1 fuel m2 out logs lg x a (_ & _ & _ & u & nh & eh & fh & r0 & rest & u' & _ & _ & _ & _ & _ & _ & Hst & _) Hin Hrec.
  apply In_nth_error in Hin. destruct Hin as [k Hk].
  destruct (steps_nth argsortF solve _ _ _ _ _ _ _ _ _ Hst k lg Hk) as (prev' & _ & Hs & _).
  apply step_kinds in Hs. destruct Hs as (incs & xl & recs & _ & Hal & Hlast). cbv zeta in *.
  assert (K : forall x0 a0, kany solve (ctx_of m1 u nh eh) (pf_config (m_set m1) xl incs) (s_jpre (m_set m1)) x0 a0 x a -> carries x a).
  { intros x0 a0 H. apply kany_recorded in H. destruct H as (H1 & H2 & H3). split; [exact H1|]. intros Hx.
    rewrite H2, H3. apply app_removelast_last. exact Hx. }
  assert (Hr : In (x, a) recs -> carries x a).
  { clear - K Hal. revert Hal. generalize (a_Ured (lg_start lg) ++ [f0]). generalize (lg_start lg). induction recs as [|[y b] recs IH]; intros a0 x0 Hal Hi; [destruct Hi|].
    destruct Hal as [H Hal]. destruct Hi as [E|Hi]; [|exact (IH _ _ Hal Hi)]. injection E as -> ->.
    apply (K x0 a0). unfold kany. tauto. }
  destruct Hlast as [E|(y & b & E & Hf)]; rewrite E in Hrec; [exact (Hr Hrec)|].
  apply in_app_iff in Hrec. destruct Hrec as [Hrec|[Ei|[]]]; [exact (Hr Hrec)|]. injection Ei as -> ->.
  eapply K. unfold kany. right. right. exact Hf.
Qed.
Print Assumptions C25_unknowns.

(** A result of the sample truss, with two displacements and the load factor. *)
Example C25_unknowns_meets : exists m1 m2 out logs lg x a,
  build argsort_ins (xr_at (xr_settings 8 8 false false None 8 3 2)) = Ok m1 /\
  ran_as argsort_fx gauss m1 40 m2 out logs /\ In lg logs /\ In (x, a) (lg_recs lg) /\ length x = 3 /\ carries x a.
Proof.
  pose (st := xr_settings (F:=fix_) 8 8 false false None 8 3 2).
  pose (test := fun (m1 m2 : model fix_) (out : list msg) =>
    (s_nsteps (m_set m1) =? 2)%Z && on_built false (fun u => (length (u_R u) =? 7)%nat && forallb (fun a => (length (a_Vred a) =? 3)%nat) (tl (u_R u))) m2).
  destruct (xr_tested st test) as (m1 & m2 & out & Hb & Hr & Ht); [vm_compute; reflexivity|].
  unfold test, on_built in Ht. apply andb_true_iff in Ht. destruct Ht as [Hn Ht]. apply Z.eqb_eq in Hn.
  destruct (m_built m2) as [u|] eqn:Eu; [|discriminate]. apply andb_true_iff in Ht. destruct Ht as [Hl Ht]. apply Nat.eqb_eq in Hl.
  destruct (run_ran_as argsort_fx gauss m1 40 m2 out Hr) as (logs & HL); [lia|].
  pose proof HL as (_ & _ & _ & u0 & nh & eh & fh & r0 & rest & u' & E1 & _ & _ & _ & E5 & E6 & _ & E8 & _).
  assert (u' = u) by congruence. subst u'.
  assert (Hu0 : u_R u0 = [r0]).
  { destruct (build_reached argsort_ins _ _ _ _ _ _ argsort_ins_ok (xr_described st) Hb) as (_ & _ & _ & ub & _ & _ & _ & _ & Eb & _ & _ & _ & _ & _ & (rb & Er & _) & _).
    assert (ub = u0) by congruence. subst ub. congruence. }
  rewrite Hu0 in E8. cbn [removelast app] in E8. rewrite E8 in Hl, Ht. cbn [length tl] in Hl, Ht.
  destruct (concat (map lg_results logs)) as [|a as_] eqn:Ec; [discriminate|].
  assert (Ha : In a (concat (map lg_results logs))) by (rewrite Ec; now left).
  apply in_concat in Ha. destruct Ha as (rs & Hrs & Ha). apply in_map_iff in Hrs. destruct Hrs as (lg & <- & Hlg).
  unfold lg_results in Ha. apply in_map_iff in Ha. destruct Ha as ([x b] & Eb & Hx). cbn in Eb. subst b.
  pose proof (C25_unknowns _ _ _ _ _ _ _ _ _ _ _ _ HL Hlg Hx) as Hc.
  exists m1, m2, out, logs, lg, x, a. split; [exact Hb|]. split; [exact HL|]. split; [exact Hlg|]. split; [exact Hx|]. split; [|exact Hc].
  destruct Hc as [<- _]. cbn [forallb] in Ht. apply andb_true_iff in Ht. apply Nat.eqb_eq. exact (proj1 Ht).
Qed.
