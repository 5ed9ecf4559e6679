(** * C34: a run determines its steps *)
From Coq Require Import List ZArith Bool Arith Lia.
Import ListNotations.
From Verif Require Import Num NumFix Vec Handlers Material Analysis Truss Equil Solver Run ListFacts EditFacts SpecMech SpecBuild
  SpecSolver SpecRun RunFacts RunProps ExRun PropRun.

Section Unique.
  Context {F : Type} `{NF : Num F}.
  Variables (argsortF : list F -> list nat) (solve : list (list F) -> list F -> list F).

  Lemma in_step_unique {A} (p : perstep A) k a b : in_step p k a -> in_step p k b -> a = b.
  Proof. destruct p; cbn; congruence. Qed.

  Lemma superposed_unique (rows : list (list F)) lpfs s f1 f2 : superposed rows lpfs s f1 -> superposed rows lpfs s f2 -> f1 = f2.
  Proof.
    intros [L1 H1] [L2 H2]. apply nth_error_ext. intros i.
    destruct (nth_error rows i) as [row|] eqn:Er.
    - destruct (H1 _ _ Er) as (r1 & E1 & N1 & V1). destruct (H2 _ _ Er) as (r2 & E2 & N2 & V2). rewrite E1, E2. f_equal.
      apply nth_error_ext. intros d. destruct (Nat.ltb_spec d (length r1)) as [Hd|Hd].
      + rewrite V1, V2 by lia. reflexivity.
      + rewrite (proj2 (nth_error_None r1 d)), (proj2 (nth_error_None r2 d)) by lia. reflexivity.
    - apply nth_error_None in Er. rewrite (proj2 (nth_error_None f1 i)), (proj2 (nth_error_None f2 i)) by lia. reflexivity.
  Qed.

  Lemma step_starts_unique (rows : list (list F)) lpfs k prev a b : step_starts rows lpfs k prev a -> step_starts rows lpfs k prev b -> a = b.
  Proof.
    intros (A1 & A2 & A3 & A4 & A5) (B1 & B2 & B3 & B4 & B5). rewrite A5, B5.
    assert (E4 : a_f0red a = a_f0red b) by congruence.
    rewrite A1, B1, A3, B3, E4, (superposed_unique _ _ _ _ _ A2 B2). reflexivity.
  Qed.

  Lemma steps_unique c st rows fuel : forall l1 l2 k prev lpfs pl, length l1 = length l2 ->
    steps_from argsortF solve c st rows fuel k prev lpfs pl l1 -> steps_from argsortF solve c st rows fuel k prev lpfs pl l2 -> l1 = l2.
  Proof.
    induction l1 as [|g1 l1 IH]; intros [|g2 l2] k prev lpfs pl L H1 H2; try discriminate; [reflexivity|].
    destruct H1 as (S1 & (i1 & x1 & p1 & A1 & A2 & A3 & A4 & A5) & R1). destruct H2 as (S2 & (i2 & x2 & p2 & B1 & B2 & B3 & B4 & B5) & R2).
    assert (E : g1 = g2).
    { pose proof (step_starts_unique _ _ _ _ _ _ S1 S2) as Es.
      rewrite (in_step_unique _ _ _ _ A1 B1), (in_step_unique _ _ _ _ A2 B2), Es in A3. rewrite B3 in A3. injection A3 as <-.
      rewrite A4 in B4. rewrite A5 in B5. destruct g1 as [s1 r1 o1], g2 as [s2 r2 o2]. cbn in *. congruence. }
    subst g2. f_equal. eapply IH; [cbn in L; lia|exact R1|exact R2].
  Qed.
End Unique.

(** A run that returns has exactly one list of steps: their starts, records and lines
    are determined by the model and the settings. *)
Theorem C34_steps : forall F (NF : Num F) argsortF solve (m1 : model F) fuel m2 out,
  run argsortF solve m1 fuel = Ok (m2, out) -> (0 < s_nsteps (m_set m1))%Z ->
  exists logs, ran_as argsortF solve m1 fuel m2 out logs /\
    forall logs', ran_as argsortF solve m1 fuel m2 out logs' -> logs' = logs.
Proof.
  intros F NF argsortF solve m1 fuel m2 out Hr Hn. destruct (run_ran_as argsortF solve _ _ _ _ Hr Hn) as (logs & HL).
  exists logs. split; [exact HL|]. intros logs' HL'.
  destruct HL as (_ & L1 & _ & u & nh & eh & fh & r0 & rest & u' & B1 & B2 & B3 & B4 & B5 & _ & S1 & _).
  destruct HL' as (_ & L2 & _ & v & nh' & eh' & fh' & r0' & rest' & v' & C1 & C2 & C3 & C4 & C5 & _ & S2 & _).
  assert (v = u) by congruence. assert (nh' = nh) by congruence. assert (eh' = eh) by congruence. assert (fh' = fh) by congruence. subst v nh' eh' fh'.
  assert (r0' = r0) by congruence. subst r0'.
  eapply (steps_unique argsortF solve); [|exact S2|exact S1]. apply Nat2Z.inj. congruence.
Qed.
Print Assumptions C34_steps.

(** The sample run of two steps. *)
Example C34_steps_meets : exists m1 m2 out, build argsort_ins (xr_at (xr_settings 8 8 false false None 8 3 2)) = Ok m1 /\
  run argsort_fx gauss m1 40 = Ok (m2, out) /\ s_nsteps (m_set m1) = 2%Z.
Proof.
  destruct (xr_tested (xr_settings 8 8 false false None 8 3 2) (fun m1 _ _ => (s_nsteps (m_set m1) =? 2)%Z)) as (m1 & m2 & out & Hb & Hr & Ht); [vm_compute; reflexivity|].
  apply Z.eqb_eq in Ht. eauto 10.
Qed.
