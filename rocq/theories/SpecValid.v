(** * Vocabulary for complete models and usable settings *)
From Coq Require Import List ZArith Bool Arith.
Import ListNotations.
From Verif Require Import Num Vec Handlers Material Analysis Truss Equil Solver Run SpecMech.

Section Valid.
  Context {F : Type} `{NF : Num F}.

  (** A member with an area and the material parameters its law needs: Young's modulus,
      and for the plastic law hardening modulus and yield stress. *)
  Definition complete (b : member F) : Prop :=
    mb_geo b <> [] /\
    match mb_law b with UmatEl => mb_mat b <> [] | UmatPl => (3 <= length (mb_mat b))%nat end.

  (** A setting that is one value or a tuple gives each of [n] steps a value with [P]. *)
  Definition each_step {A} (n : nat) (p : perstep A) (P : A -> Prop) : Prop :=
    match p with
    | Same a => P a
    | Per l => forall k, (k < n)%nat -> exists a, nth_error l k = Some a /\ P a
    end.

  (** Settings for a model with [n] free components, of which x = (u, lpf) has one more:
      - every step has a number of increments and a limit on an existing component
        (counted from 1, or backwards from 0);
      - the Newton iteration may make one iteration, two if one is spent on the
        predictor;
      - a locked control component is given and exists;
      - the factor by which step control reduces steps is not zero;
      - the settings can be written to the log. *)
  Definition usable (n : nat) (st : settings F) : Prop :=
    each_step (Z.to_nat (s_nsteps st)) (s_incs st) (fun _ => True) /\
    each_step (Z.to_nat (s_nsteps st)) (s_xlimit st) (fun kl => (- Z.of_nat n <= fst kl <= Z.of_nat n + 1)%Z) /\
    (1 <= s_nfev st)%Z /\ (s_jpre st = true -> s_jfixed st = false -> (2 <= s_nfev st)%Z) /\
    (s_jfixed st = true -> exists j, s_j0 st = Some j /\ (Z.abs j <= Z.of_nat n + 1)%Z) /\
    (s_stepcontrol st = true -> feqb (s_reduce st) f0 = false) /\
    ((s_log st <= 1)%Z \/ s_j0 st = None).
End Valid.
