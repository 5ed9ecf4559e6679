(** * Vocabulary: shorter and longer analyses *)
From Coq Require Import List ZArith Bool Arith.
Import ListNotations.
From Verif Require Import Num Solver Run SpecRun.
Local Open Scope num_scope.

Section Long.
  Context {F : Type} `{NF : Num F}.

  (** Limit [l] stops wherever limit [l'] on the same component stops, or earlier. *)
  Definition tighter (l l' : Z * option F) : Prop :=
    fst l = fst l' /\
    match snd l, snd l' with
    | _, None => True
    | None, Some _ => False
    | Some m, Some m' => forall x, (m' <? fabs x) = true -> (m <? fabs x) = true
    end.

  (** The settings [s] with other increments, limits and number of steps. *)
  Definition horizon (incs : perstep Z) (lim : perstep (Z * option F)) (nsteps : Z) (s : settings F) : settings F :=
    Settings incs (s_stepcontrol s) (s_maxfac s) (s_minfac s) (s_increase s) (s_reduce s)
             (s_dxtol s) (s_ftol s) (s_xtol s) (s_cycl s) (s_nfev s) (s_dlpf s) (s_du s)
             lim (s_log s) (s_j0 s) (s_jpre s) (s_jfixed s) (s_nstatev s) nsteps.

  (** [st] asks for less than [st']: no more steps, in the last of them no more
      increments and no wider limit; before it the same. *)
  Definition asks_less (st st' : settings F) : Prop :=
    st = horizon (s_incs st) (s_xlimit st) (s_nsteps st) st' /\
    let n := Z.to_nat (s_nsteps st) in
    (1 <= n <= Z.to_nat (s_nsteps st'))%nat /\
    forall k, (k < n)%nat -> exists i i' l l',
      in_step (s_incs st) k i /\ in_step (s_incs st') k i' /\
      in_step (s_xlimit st) k l /\ in_step (s_xlimit st') k l' /\
      (i = i' /\ l = l' \/ (k + 1 = n)%nat /\ (i <= i')%Z /\ tighter l l').
End Long.

Definition prefix {A} (l l' : list A) : Prop := exists r, l' = l ++ r.
