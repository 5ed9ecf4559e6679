(** * C58: accepted increments balance in double precision, rounding included *)
From Coq Require Import List ZArith Bool Arith Lia Reals SpecFloat.
Import ListNotations.
From Verif Require Import Num Vec Handlers Material Analysis Truss Equil Solver Run SpecMech SpecSolver SpecBuild SpecRun
  RecFacts RunProps EditFacts Double SpecDouble SpecRound Binary64 SpecBalance64 Balance64Facts ExRun NumFix.

(** Every number is a double and every operation rounds.  The recorded numbers, read
    as real numbers, satisfy the equilibrium equation of each active DOF within
    [10^-ftol] and a few roundings of its terms, and the control component went by its
    step.  Increments skipped by a converged predictor are the exception. *)
Theorem C58_balance : forall argsortZ (argsortF : list b64 -> list nat) solve P m ns ms bs fs m1 fuel m2 out logs,
  argsort_ok argsortZ -> described m ns ms bs fs -> session argsortF solve argsortZ P m m1 ->
  ran_as argsortF solve m1 fuel m2 out logs ->
  (forall u, m_built m1 = Some u -> (1 <= u_ndof1 u)%nat) ->
  (0 <= s_ftol (m_set m1))%Z ->
  forall lg, In lg logs -> exists recs, good_part lg recs /\
    along (fun x0 a0 x a =>
             ((forall k, In k (a_DOF1 a) -> balance64 (s_ftol (m_set m1)) a k) /\ led64 (s_ftol (m_set m1)) x0 x a) \/
             (s_jpre (m_set m1) = true /\ s_jfixed (m_set m1) = false /\ x = x0))
          (a_Ured (lg_start lg) ++ [f0]) (lg_start lg) recs.
Proof.
  intros argsortZ argsortF solve P m ns ms bs fs m1 fuel m2 out logs HA Hd HS Hr H1 Hn lg Hin.
  destruct (records_balance _ _ _ _ _ _ _ _ _ _ _ _ _ _ HA Hd HS Hr H1 lg Hin) as (recs & Hg & Hal).
  exists recs. split; [exact Hg|].
  eapply (along_impl _ _ (fun _ _ => True)) in Hal; [apply Hal|exact I|].
  intros x0 a0 x a _ [[B1 B2]|B]; (split; [exact I|]); [left|right; exact B]. now apply accepted64.
Qed.
Print Assumptions C58_balance.

(** ** A run evaluated by the kernel *)
Definition argsort_b (l : list b64) : list nat :=
  map snd (fold_right
    (fix ins (p : b64 * nat) l :=
       match l with [] => [p] | q :: l' => if fleb (fst p) (fst q) then p :: l else q :: ins p l' end)
    [] (combine l (seq 0 (length l)))).

(** Two steps of three increments without ERROR line and two active DOFs.  In the
    last one an internal force, a reference force and the load factor are not zero. *)
Example C58_meets : let st := xr_settings 8 8 false false None 8 3 2 in
  exists m1 m2 out logs u1 u2 a k,
  argsort_ok argsort_ins /\ described (xr_at st) (xr_ns (F:=b64)) xr_ms xr_bs xr_fs /\
  session argsort_b gauss argsort_ins (fun _ => True) (xr_at st) m1 /\
  ran_as argsort_b gauss m1 40 m2 out logs /\
  m_built m1 = Some u1 /\ u_ndof1 u1 = 2%nat /\ s_ftol (m_set m1) = 8%Z /\
  m_built m2 = Some u2 /\ nth_error (u_R u2) 6 = Some a /\ In k (a_DOF1 a) /\
  nonzero (nth k (vflat (a_r a)) f0) /\ nonzero (nth k (concat (a_forces a)) f0) /\ nonzero (a_lpf a) /\
  (forall e, In e out -> ~ error_line e).
Proof.
  intros st.
  pose (nz := fun x : b64 => match sf x with S754_finite _ _ _ => true | _ => false end).
  pose (test := fun (m1 m2 : model b64) (out : list msg) =>
    match m_built m1, m_built m2 with
    | Some u1, Some u2 =>
      forallb (fun e => match e with MIncr => true | MRecycle => true | _ => false end) out &&
      (u_ndof1 u1 =? 2)%nat && (0 <? s_nsteps (m_set m1))%Z && (s_ftol (m_set m1) =? 8)%Z &&
      match nth_error (u_R u2) 6 with
      | Some a => existsb (fun k => nz (nth k (vflat (a_r a)) f0) && nz (nth k (concat (a_forces a)) f0)) (a_DOF1 a) && nz (a_lpf a)
      | None => false
      end
    | _, _ => false
    end).
  assert (T : match build argsort_ins (xr_at st) with
              | Ok m1 => match run argsort_b gauss m1 40 with Ok (m2, out) => test m1 m2 out | _ => false end
              | _ => false end = true) by (vm_cast_no_check (eq_refl true)).
  destruct (build _ _) as [m1| |] eqn:Hb; try discriminate.
  destruct (run _ _ _ _) as [[m2 out]| |] eqn:Hr; try discriminate.
  unfold test in T. destruct (m_built m1) as [u1|] eqn:E1; try discriminate. destruct (m_built m2) as [u2|] eqn:E2; try discriminate.
  rewrite !andb_true_iff, !Nat.eqb_eq, Z.ltb_lt, Z.eqb_eq in T. destruct T as ((((H1 & H2) & H3) & H4) & H5).
  destruct (nth_error (u_R u2) 6) as [a|] eqn:Ea; try discriminate. rewrite andb_true_iff, existsb_exists in H5.
  destruct H5 as [(k & Hk & H5) H6]. rewrite andb_true_iff in H5. destruct H5 as [H5 H7].
  assert (N : forall x, nz x = true -> nonzero x) by (intros [[?|?| |? ? ?] ?]; cbn; intros; try discriminate; exact I).
  destruct (run_ran_as _ _ _ _ _ _ Hr H3) as [logs HL].
  exists m1, m2, out, logs, u1, u2, a, k. split; [apply argsort_ins_ok|]. split; [apply xr_described|].
  split; [constructor; exact Hb|]. split; [exact HL|].
  repeat (split; [first [assumption|apply N; assumption]|]).
  intros e He. rewrite forallb_forall in H1. specialize (H1 e He). destruct e; try discriminate; intros [E|E]; discriminate.
Qed.
