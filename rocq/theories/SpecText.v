(** * Vocabulary for the printed text *)
From Coq Require Import List ZArith Bool Arith.
Import ListNotations.
From Verif Require Import Num Vec Handlers Analysis Equil Solver Run Text SpecSolver SpecRun.

(** [sub l l']: [l'] is [l] with further lines put in anywhere. *)
Inductive sub {A : Type} : list A -> list A -> Prop :=
| sub_nil : sub [] []
| sub_take a l l' : sub l l' -> sub (a :: l) (a :: l')
| sub_skip a l l' : sub l l' -> sub l (a :: l').

Section Spec.
  Context {F : Type} `{NF : Num F}.
  Notation L := (line F).

  (** What a reader looks for in the text: the numbers of the increments, the
      "final LPF" values, the "write result" lines, the numbers of the steps, and the
      ERROR, EXIT and recycling lines in order. *)
  Definition increments_in (t : list L) : list Z :=
    flat_map (fun l => match l with LIncrement i => [i] | _ => [] end) t.
  Definition finals_in (t : list L) : list F :=
    flat_map (fun l => match l with LFinal v => [v] | _ => [] end) t.
  Definition writes_in (t : list L) : list (nat * nat * F) :=
    flat_map (fun l => match l with LWrite i n v => [(i, n, v)] | _ => [] end) t.
  Definition steps_in (t : list L) : list Z :=
    flat_map (fun l => match l with LStep k => [k] | _ => [] end) t.
  Definition messages_in (t : list L) : list msg :=
    flat_map (fun l => match l with
      | LIncrement _ => [MIncr] | LRecycle => [MRecycle] | LError1 => [MError1]
      | LError2 => [MError2] | LExit => [MExit1] | _ => [] end) t.

  (** The same with another log level. *)
  Definition with_log (n : Z) (s : settings F) : settings F :=
    Settings (s_incs s) (s_stepcontrol s) (s_maxfac s) (s_minfac s) (s_increase s) (s_reduce s)
             (s_dxtol s) (s_ftol s) (s_xtol s) (s_cycl s) (s_nfev s) (s_dlpf s) (s_du s)
             (s_xlimit s) n (s_j0 s) (s_jpre s) (s_jfixed s) (s_nstatev s) (s_nsteps s).
  Definition at_level (n : Z) (m : model F) : model F := with_settings (with_log n (m_set m)) m.

  (** The parameter table can be printed at this level: it cannot with an initial
      control component, nor with step control and [reduce] = 0. *)
  Definition printable (st : settings F) (level : Z) : Prop :=
    (level <= 1)%Z \/ s_j0 st = None /\ (s_stepcontrol st = true -> feqb (s_reduce st) f0 = false).
End Spec.

(** Norm shown in the last row of iterations of a text. *)
Definition last_norm {F} (t : list (line F)) : option F :=
  last (map Some (flat_map (fun l => match l with LIter _ v => [v] | _ => [] end) t)) None.

(** [part] is the text from one "Increment" line up to the next one and belongs to
    the recorded increment [rec]: it shows its load factor once as the final one.
    Unless there is an ERROR line, there are rows of iterations and the last one shows
    a norm below [ftol]; only where increments may be skipped after the predictor
    ([skips]) there can be none. *)
Definition shows {F} `{Num F} (ftol : F) (skips : Prop) (part : list (line F)) (rec : list F * analysis F) : Prop :=
  exists i body, part = LIncrement i :: body /\ increments_in body = [] /\ finals_in body = [a_lpf (snd rec)] /\
    ((forall e, In e (messages_in body) -> ~ error_line e) ->
     match last_norm body with Some v => fltb v ftol = true | None => skips end).

(** The text [t] shows the records [recs] one after the other; before the first and
    after them there are lines without increment numbers and load factors only. *)
Definition shows_all {F} `{Num F} (ftol : F) (skips : Prop) (t : list (line F)) (recs : list (list F * analysis F)) : Prop :=
  exists head parts, t = head ++ concat parts /\ increments_in head = [] /\ finals_in head = [] /\
    Forall2 (shows ftol skips) parts recs.

(** The messages of a run that are printed at log level [v]: without a level the lines
    that begin an increment are not. *)
Definition heard (v : Z) (out : list msg) : list msg :=
  if (0 <? v)%Z then out else filter (fun m => match m with MIncr => false | _ => true end) out.

Section Cut.
  Context {F : Type} `{NF : Num F}.
  (** The settings with the steps after number [K] (counted from 0) left out and with
      [q] increments in step [K]. *)
  Definition cut_incs (p : perstep Z) (K : nat) (q : Z) : perstep Z :=
    Per (match p with Same n => repeat n K | Per l => firstn K (l ++ repeat 0%Z K) end ++ [q]).
  Definition cut (K : nat) (q : Z) (s : settings F) : settings F :=
    Settings (cut_incs (s_incs s) K q) (s_stepcontrol s) (s_maxfac s) (s_minfac s) (s_increase s) (s_reduce s)
             (s_dxtol s) (s_ftol s) (s_xtol s) (s_cycl s) (s_nfev s) (s_dlpf s) (s_du s)
             (s_xlimit s) (s_log s) (s_j0 s) (s_jpre s) (s_jfixed s) (s_nstatev s) (Z.of_nat (S K)).
End Cut.

Section Lines.
  Context {F : Type} `{NF : Num F}.

  (** A row of the parameter table shows the setting (the reduction factor inverted). *)
  Definition param_true (st : settings F) (p : param F) : Prop :=
    match p with
    | PIncs v => v = s_incs st | PCycl v => v = s_cycl st | PNfev v => v = s_nfev st
    | PDu v => v = s_du st | PDlpf v => v = s_dlpf st | PJ0 => s_j0 st = None | PJfixed v => v = s_jfixed st
    | PDxtol v => v = s_dxtol st | PXtol v => v = s_xtol st | PFtol v => v = s_ftol st
    | PStepcontrol v => v = s_stepcontrol st /\ v = true | PMinfac v => v = s_minfac st | PMaxfac v => v = s_maxfac st
    | PReduce v => v = fdiv f1 (s_reduce st) | PIncrease v => v = s_increase st
    end.

  (** What the lines of a run with the settings [st] can say: steps and iterations are
      within the numbers set, step widths are reduced by 1/reduce and increased by
      1 + (N-n)/N increase for n of N iterations, and only with step control. *)
  Definition line_true (st : settings F) (l : line F) : Prop :=
    match l with
    | LParam p => param_true st p
    | LStep k | LCreate k | LEndStep k => (1 <= k <= s_nsteps st)%Z
    | LIncrement i => (1 <= i)%Z
    | LIter n _ => (1 <= n <= s_nfev st)%Z
    | LReduce v => s_stepcontrol st = true /\ v = fdiv f1 (s_reduce st) /\ feqb (s_reduce st) f0 = false
    | LReduceForced | LReduceInactive => s_stepcontrol st = true
    | LIncrease v => s_stepcontrol st = true /\
        exists n N, (1 <= n <= N)%Z /\ (N <= s_nfev st)%Z /\
          v = fadd f1 (fmul (fdiv (fofZ (N - n)) (fofZ N)) (s_increase st))
    | LIncreaseInactive b => s_stepcontrol st = true /\ (b <= 3)%Z
    | _ => True
    end.
End Lines.
