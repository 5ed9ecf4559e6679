(** * Vocabulary for trusses with one free degree of freedom *)
From Coq Require Import List ZArith Bool Arith Reals.
Import ListNotations.
From Verif Require Import Num NumR Vec Handlers Material Analysis Truss Equil Solver Run SpecMech SpecMechR SpecBar SpecSolver SpecRun.
Local Open Scope R_scope.

(** Members have an area and the constants of their law: E for an elastic one,
    E, K and yield stress for a plastic one. *)
Definition members_ok (ms : list (member R)) : Prop :=
  forall b, In b ms -> mb_geo b <> [] /\
    match mb_law b with UmatEl => mb_mat b <> [] | UmatPl => (3 <= length (mb_mat b))%nat end.

(** An analysis object of a truss whose only active component is [p], with
    reference load [F] on it. *)
Definition one_free (c : ctx R) (ms : list (member R)) (p : nat) (F : R) (an : analysis R) : Prop :=
  sizes_ok c ms an /\ loads_ok c an /\ props_ok c ms an /\ a_DOF1 an = [p] /\ a_f0red an = [F] /\
  nth p (concat (a_forces an)) 0 = F.

(** A step of [n] increments without an ERROR line.  In its [q]-th increment the
    displacement of the free component [p] is [u0 + q * adv], exactly, and the
    residual is smaller than [tol]. *)
Definition driven (p : nat) (tol u0 adv : R) (n : nat) (lg : step_log R) : Prop :=
  length (lg_recs lg) = n /\ (forall e, In e (lg_out lg) -> ~ error_line e) /\
  forall q x a, nth_error (lg_recs lg) q = Some (x, a) ->
    x = [u0 + INR (S q) * adv; a_lpf a] /\
    gather (vflat (a_U a)) [p] = Ok [u0 + INR (S q) * adv] /\
    exists r, gather (a_g a) [p] = Ok [r] /\ Rabs r < tol.

(** Number of increments of the first [k] steps. *)
Definition incs_before (n : nat -> Z) (k : nat) : nat := list_sum (map (fun t => Z.to_nat (n t)) (seq 0 k)).

(** Displacement control: the displacement is locked as control component, in the
    direction of the sign of [j]; no step control. *)
Definition disp_control (st : settings R) (j : Z) : Prop :=
  s_jfixed st = true /\ s_j0 st = Some j /\ Z.abs j = 1%Z /\ s_stepcontrol st = false /\
  1 <= s_dxtol st /\ (3 <= s_nfev st)%Z /\ s_du st <> 0 /\ (s_log st <= 1)%Z.

(** Settings of a run of at least one step with a locked control component. *)
Definition locked_run (st : settings R) : Prop := s_jfixed st = true /\ (0 < s_nsteps st)%Z.

(** A bar of an elastic-plastic material in direction [i]: node 1 at [p] held,
    node 2 at distance [L], free in this direction and loaded by [F]. *)
Definition tension_model (i : nat) (p : v3 R) (L E K Sy A F : R) (st : settings R) : model R :=
  Model (Some (NodeH [1; 2]%Z [p; vadd p (along_axis i L)]))
    (Some (ElemH [1]%Z [(1, 2)]%Z [1]%Z [2]%Z (Tab false 3 [[E; K; Sy]]) (Tab false 1 [[A]])))
    (Some (BoundH [1; 2]%Z (UMat 3 [[0; 0; 0]; set_nth i 1 [0; 0; 0]]%Z)))
    (Some (ForceH [2]%Z 3 [set_nth i F [0; 0; 0]])) st None.
