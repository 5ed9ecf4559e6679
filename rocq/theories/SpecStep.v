(** * Vocabulary for the step control and for termination *)
From Coq Require Import List ZArith Bool Arith Reals.
Import ListNotations.
From Verif Require Import Num NumR Analysis Solver.

(** The callbacks return or raise ([Timeout] is no Python outcome). *)
Definition no_timeout {F} (g : gfun F) (dg : kfun F) : Prop :=
  (forall V V0 w an, g V V0 w an <> Timeout) /\ (forall U an, dg U an <> Timeout).

Local Open Scope R_scope.

(** Admissible parameters of the step control. *)
Definition control_params (cfg : pfcfg R) : Prop :=
  0 <= cf_minfac cfg <= 1 /\ 1 <= cf_maxfac cfg /\ 1 <= cf_reduce cfg /\ 0 <= cf_increase cfg.

Definition multiple (d0 : list R) (c : R) (d : list R) : Prop := d = map (fun x => x * c) d0.

(** The step limits [d] are the initial ones [d0] times a common factor between
    minfac/reduce and maxfac*(1+increase). *)
Definition bounds_I (cfg : pfcfg R) (d0 : list R) (j : Z) (d : list R) : Prop :=
  exists c, cf_minfac cfg / cf_reduce cfg <= c <= cf_maxfac cfg * (1 + cf_increase cfg) /\ multiple d0 c d.
