(** * Vocabulary for runs with small steps *)
From Coq Require Import List ZArith Bool Arith Reals.
Import ListNotations.
From Verif Require Import Num NumR Vec Handlers Material Analysis Truss Equil Solver Run SpecMech SpecMechR SpecForm SpecNewton SpecBuild.
Local Open Scope R_scope.

(** A member with its parameters given that is elastic as long as it is strained
    little: linear elastic, or plastic with positive modulus and yield stress and
    without softening. *)
Definition elastic_at_first (b : member R) : Prop :=
  mb_geo b <> [] /\
  match mb_law b with
  | UmatEl => mb_mat b <> []
  | UmatPl => exists E K Sy rest, mb_mat b = E :: K :: Sy :: rest /\ 0 < E /\ 0 <= K /\ 0 < Sy
  end.

(** The step size of the control component [j] of [n]: the last component is the
    load factor. *)
Definition step_size (st : settings R) (j : Z) (n : nat) : R :=
  if (Z.abs j =? Z.of_nat n)%Z then s_dlpf st else s_du st.

(** One step of [k] increments with component [j] of [n] locked as control component,
    no step control, no limit; increments up to [tau] too long are accepted. *)
Definition small_control (st : settings R) (j : Z) (n k : nat) (tau : R) : Prop :=
  s_jfixed st = true /\ s_j0 st = Some j /\ s_stepcontrol st = false /\ 1 + tau <= s_dxtol st /\ s_nsteps st = 1%Z /\ (s_log st <= 1)%Z /\
  s_incs st = Same (Z.of_nat k) /\ exists l, s_xlimit st = Same (l, None) /\ (1 - Z.of_nat n <= l <= Z.of_nat n)%Z.

(** No mechanism: a nodal field [v] that vanishes at every supported component and
    does not change the length of any member to first order vanishes at all nodes.
    Component [d] of node [l] is free if its flag is 1, or if no row is given for [l]. *)
Definition rigid (ns : list (Z * v3 R)) (ms : list (member R)) (bs : list (Z * list Z)) : Prop :=
  forall v : Z -> v3 R,
    (forall l d, In l (map fst ns) -> (d < 3)%nat -> nth d (row_for bs [1; 1; 1]%Z l) 0%Z <> 1%Z -> vget (v l) d = 0) ->
    (forall b p q, In b ms -> In (mb_a b, p) ns -> In (mb_b b, q) ns -> vdot (vsub q p) (vsub (v (mb_b b)) (v (mb_a b))) = 0) ->
    forall l, In l (map fst ns) -> v l = vzero.

(** Young's modulus times area. *)
Definition EA (b : member R) : R := nth 0 (mb_mat b) 0 * nth 0 (mb_geo b) 0.

(** The recorded states [recs] of a run that starts at the origin with steps of size
    [d] of component [j] of [n]: the [q]-th one lies at most [q * C * d] from the
    origin in every component, its component [j] has advanced by [q] steps up to
    [q * tau * d], and no residual force exceeds [tau * d]. *)
Definition follows (j : Z) (n : nat) (d C tau : R) (recs : list (list R * analysis R)) : Prop :=
  forall q x a, nth_error recs q = Some (x, a) -> x = a_Ured a ++ [a_lpf a] /\ length x = n /\ bounded n (INR (S q) * (C * d)) x /\
    Rabs (nth (Z.to_nat (Z.abs j - 1)) x 0 - INR (S q) * (IZR (Z.sgn j) * d)) <= INR (S q) * (tau * d) /\
    exists h, gather (a_g a) (a_DOF1 a) = Ok h /\ bounded (pred n) (tau * d) h.
