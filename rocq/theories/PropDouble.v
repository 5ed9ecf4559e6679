(** * C57: no infinity and no NaN passes for a converged result (IEEE doubles) *)
From Coq Require Import List ZArith Bool Arith Lia SpecFloat.
Import ListNotations.
From Verif Require Import Num Vec Handlers Material Analysis Truss Equil Solver Run SpecMech SpecSolver SpecBuild SpecRun
  RunProps EditFacts Double SpecDouble DoubleFacts ExRun NumFix.

(** Whatever the solver of linear equations returns: in every step the increments
    before the ERROR line have finite numbers, except those that a converged
    predictor skips (nothing moves).  With free choice of the control component and
    a finite tolerance [dxtol] the whole solution vector is finite; with a fixed
    control component that component is. *)
Theorem C57_finite : forall argsortZ (argsortF : list double -> list nat) solve P m ns ms bs fs m1 fuel m2 out logs,
  argsort_ok argsortZ -> described m ns ms bs fs -> session argsortF solve argsortZ P m m1 ->
  ran_as argsortF solve m1 fuel m2 out logs ->
  (forall u, m_built m1 = Some u -> (1 <= u_ndof1 u)%nat) ->
  exists nh, m_nodes m1 = Some nh /\
  forall lg, In lg logs -> exists recs, good_part lg recs /\
    along (fun x0 a0 x a =>
             (numbers (n_labels nh) ms a /\
              (exists xj, py_get x (Z.abs (a_j a) - 1) = Ok xj /\ finite xj) /\
              (s_jfixed (m_set m1) = false -> finite (s_dxtol (m_set m1)) -> Forall finite x)) \/
             (s_jpre (m_set m1) = true /\ s_jfixed (m_set m1) = false /\ x = x0))
          (a_Ured (lg_start lg) ++ [f0]) (lg_start lg) recs.
Proof. intros argsortZ argsortF solve P m ns ms bs fs m1 fuel m2 out logs. apply records_finite. Qed.
Print Assumptions C57_finite.

(** ** Runs evaluated by the kernel in double precision *)
Definition argsort_d (l : list double) : list nat :=
  map snd (fold_right
    (fix ins (p : double * nat) l :=
       match l with [] => [p] | q :: l' => if SFleb (fst p) (fst q) then p :: l else q :: ins p l' end)
    [] (combine l (seq 0 (length l)))).

Definition xd_test (st : settings double) (test : settings double -> built double -> built double -> list msg -> bool) : bool :=
  match build argsort_ins (xr_at st) with
  | Ok m1 =>
      match run argsort_d gauss m1 40 with
      | Ok (m2, out) => match m_built m1, m_built m2 with Some u1, Some u2 => test (m_set m1) u1 u2 out | _, _ => false end
      | _ => false
      end
  | _ => false
  end.
Lemma xd_tested st test : xd_test st test = true ->
  exists m1 m2 out u1 u2, build argsort_ins (xr_at st) = Ok m1 /\ run argsort_d gauss m1 40 = Ok (m2, out) /\
    m_built m1 = Some u1 /\ m_built m2 = Some u2 /\ test (m_set m1) u1 u2 out = true.
Proof.
  unfold xd_test. destruct (build _ _) as [m1| |]; try discriminate.
  destruct (run _ _ _ _) as [[m2 out]| |] eqn:E; try discriminate.
  destruct (m_built m1) as [u1|] eqn:E1; try discriminate. destruct (m_built m2) as [u2|] eqn:E2; try discriminate.
  intros H. exists m1, m2, out, u1, u2. auto.
Qed.

(** Two steps without ERROR line, six recorded increments, two active DOFs; the
    hypotheses of [C57_finite] hold and so does the one on [dxtol]. *)
Example C57_meets : let st := xr_settings 8 8 false false None 8 3 2 in
  exists m1 m2 out logs u1 u2,
  argsort_ok argsort_ins /\ described (xr_at st) (xr_ns (F:=double)) xr_ms xr_bs xr_fs /\
  session argsort_d gauss argsort_ins (fun _ => True) (xr_at st) m1 /\
  ran_as argsort_d gauss m1 40 m2 out logs /\
  m_built m1 = Some u1 /\ u_ndof1 u1 = 2%nat /\ m_built m2 = Some u2 /\ length (u_R u2) = 7%nat /\
  (forall e, In e out -> ~ error_line e) /\ s_jfixed (m_set m1) = false /\ finite (s_dxtol (m_set m1)).
Proof.
  intros st.
  pose (test := fun (s : settings double) (u1 u2 : built double) (out : list msg) =>
    forallb (fun e => match e with MIncr => true | MRecycle => true | _ => false end) out &&
    (u_ndof1 u1 =? 2)%nat && (length (u_R u2) =? 7)%nat && (0 <? s_nsteps s)%Z && negb (s_jfixed s) &&
    match s_dxtol s with S754_finite _ _ _ => true | _ => false end).
  destruct (xd_tested st test) as (m1 & m2 & out & u1 & u2 & Hb & Hr & E1 & E2 & Ht);
    [vm_cast_no_check (eq_refl true)|].
  unfold test in Ht. rewrite !andb_true_iff, !Nat.eqb_eq, Z.ltb_lt, negb_true_iff in Ht.
  destruct Ht as (((((H1 & H2) & H3) & H4) & H5) & H6).
  destruct (run_ran_as _ _ _ _ _ _ Hr H4) as [logs HL].
  exists m1, m2, out, logs, u1, u2. split; [apply argsort_ins_ok|]. split; [apply xr_described|].
  split; [constructor; exact Hb|]. split; [exact HL|].
  repeat (split; [assumption|]). split; [|split; [exact H5|destruct (s_dxtol (m_set m1)); try discriminate; exact I]].
  intros e He. rewrite forallb_forall in H1. specialize (H1 e He). destruct e; try discriminate; intros [E|E]; discriminate.
Qed.

(** The failed increment is a different matter: with a fixed control component and
    a huge step the ERROR line is printed and the last result has the load factor,
    the member forces and the stretches NaN. *)
Theorem C57_failed_refuted : exists st m1 m2 out u2 a,
  described (xr_at st) (xr_ns (F:=double)) xr_ms xr_bs xr_fs /\
  build argsort_ins (xr_at st) = Ok m1 /\ run argsort_d gauss m1 40 = Ok (m2, out) /\
  In MError1 out /\ m_built m2 = Some u2 /\ In a (u_R u2) /\
  a_lpf a = S754_nan /\ a_force a = [S754_nan; S754_nan] /\ a_stretch a = [S754_nan; S754_nan].
Proof.
  pose (st := Settings (Same 1%Z) true (q 4 1) (q 1 100) (q 1 2) (q 8 1) (q 5 4) 8 8 4%Z 8%Z
      (q (2^600) 1) (q (2^600) 1) (Same (0%Z, None)) 0%Z (Some (-1)%Z) false true 0%Z 1%Z : settings double).
  pose (nan := fun x : double => match x with S754_nan => true | _ => false end).
  pose (test := fun (s : settings double) (u1 u2 : built double) (out : list msg) =>
    existsb (fun e => match e with MError1 => true | _ => false end) out &&
    existsb (fun a => nan (a_lpf a) && (match a_force a with [x; y] => nan x && nan y | _ => false end) &&
                      (match a_stretch a with [x; y] => nan x && nan y | _ => false end)) (u_R u2)).
  destruct (xd_tested st test) as (m1 & m2 & out & u1 & u2 & Hb & Hr & E1 & E2 & Ht);
    [vm_cast_no_check (eq_refl true)|].
  unfold test in Ht. rewrite andb_true_iff, !existsb_exists in Ht. destruct Ht as [(e & He & H1) (a & Ha & H2)].
  exists st, m1, m2, out, u2, a. split; [apply xr_described|]. split; [exact Hb|]. split; [exact Hr|].
  split; [destruct e; try discriminate; exact He|]. split; [exact E2|]. split; [exact Ha|].
  destruct (a_force a) as [|x [|y [|]]]; try (rewrite andb_false_r in H2; discriminate).
  destruct (a_stretch a) as [|x' [|y' [|]]]; try (rewrite andb_false_r in H2; discriminate).
  assert (N : forall x, nan x = true -> x = S754_nan) by (intros []; cbn; congruence).
  rewrite !andb_true_iff in H2. destruct H2 as ((A & B & C) & D & E). apply N in A, B, C, D, E. subst. auto.
Qed.
Print Assumptions C57_failed_refuted.
