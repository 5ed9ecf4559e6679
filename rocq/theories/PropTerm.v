(** * C30: a run ends *)
From Coq Require Import List ZArith Bool Arith Lia Reals Lra.
Import ListNotations.
From Verif Require Import Num NumR NumFix Vec Handlers Material Analysis Truss Equil Solver Run EditFacts SpecStep StepFacts ExRun TermFacts.

(** Fuel stands for the time the caller waits: once a run has ended, waiting longer
    does not change how it ended. *)
Theorem C30_patience : forall F (NF : Num F) argsortF solve (m : model F) fuel fuel', (fuel <= fuel')%nat ->
  run argsortF solve m fuel <> Timeout -> run argsortF solve m fuel' = run argsortF solve m fuel.
Proof. intros F NF argsortF solve m fuel fuel' H Ht. destruct (run_more argsortF solve m fuel fuel' H) as [E|E]; [contradiction|exact E]. Qed.
Print Assumptions C30_patience.

(** Without step control every run of every model returns or raises, in any
    arithmetic, after at most [cycl] Newton runs for each increment. *)
Theorem C30_run_plain : forall F (NF : Num F) argsortF solve (m : model F) fuel,
  s_stepcontrol (m_set m) = false -> (1 <= s_cycl (m_set m))%Z -> (Z.to_nat (s_cycl (m_set m)) <= fuel)%nat ->
  run argsortF solve m fuel <> Timeout.
Proof. intros F NF. exact run_plain. Qed.
Print Assumptions C30_run_plain.

Local Open Scope R_scope.

(** With step control, for given settings, there is a number of Newton runs for each
    increment that is enough whatever the model. *)
Theorem C30_run_control : forall argsortF solve (st : settings R),
  s_stepcontrol st = true -> (1 <= s_cycl st)%Z -> 0 < s_minfac st <= 1 -> 1 <= s_maxfac st -> 1 < s_reduce st -> 0 <= s_increase st -> 0 < s_du st -> 0 < s_dlpf st ->
  exists N, forall m fuel, m_set m = st -> (N <= fuel)%nat ->
    run argsortF solve m fuel <> Timeout /\ run argsortF solve m fuel = run argsortF solve m N.
Proof.
  intros argsortF solve st H1 H2 H3 H4 H5 H6 H7 H8. destruct (reductions_exist (s_minfac st) (s_maxfac st * (1 + s_increase st)) (s_reduce st) ltac:(lra) H5) as [N HN].
  exists (Z.to_nat (s_cycl st) * (N + 1))%nat. intros m fuel <- Hf. split.
  - apply (run_controlled argsortF solve m fuel N); assumption.
  - apply C30_patience; [exact Hf|]. apply (run_controlled argsortF solve m _ N); try assumption. lia.
Qed.
Print Assumptions C30_run_control.

(** The settings of the sample truss, whose step control is on, are of this kind. *)
Example C30_run_meets : let st := xr_settings (F:=R) 8 8 true false None 8 10 2 in
  s_stepcontrol st = true /\ (1 <= s_cycl st)%Z /\ 0 < s_minfac st <= 1 /\ 1 <= s_maxfac st /\ 1 < s_reduce st /\ 0 <= s_increase st /\ 0 < s_du st /\ 0 < s_dlpf st /\
  exists N, forall m1 fuel, build argsort_ins (xr_at st) = Ok m1 -> (N <= fuel)%nat -> run (fun l => seq 0 (length l)) gauss m1 fuel <> Timeout.
Proof.
  intros st. assert (H : s_stepcontrol st = true /\ (1 <= s_cycl st)%Z /\ 0 < s_minfac st <= 1 /\ 1 <= s_maxfac st /\ 1 < s_reduce st /\ 0 <= s_increase st /\ 0 < s_du st /\ 0 < s_dlpf st).
  { cbn. unfold q. cbn. numR. split; [reflexivity|]. split; [lia|]. repeat split; lra. }
  destruct H as (H1 & H2 & H3 & H4 & H5 & H6 & H7 & H8). repeat (split; [assumption|]).
  destruct (C30_run_control (fun l => seq 0 (length l)) gauss (with_nstatev 2 st) H1 H2 H3 H4 H5 H6 H7 H8) as [N HN].
  exists N. intros m1 fuel Hb Hf. apply HN; [|exact Hf]. lazy in Hb. injection Hb as <-. reflexivity.
Qed.
