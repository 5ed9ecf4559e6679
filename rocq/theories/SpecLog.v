(** * Vocabulary for statements about log files *)
From Coq Require Import List ZArith Bool Arith String.
Import ListNotations.
From Verif Require Import Logfile.

(** The text a stream has received, in order. *)
Fixpoint received (s : stream) (t : list (stream * string)) : list string :=
  match t with
  | [] => []
  | (s', l) :: t =>
      match s, s' with
      | User a, User b => if Nat.eqb a b then l :: received s t else received s t
      | LogOf a, LogOf b => if Nat.eqb a b then l :: received s t else received s t
      | _, _ => received s t
      end
  end.

(** The interpreter before any model exists. *)
Definition fresh_world (w : world) : Prop := w_models w = [] /\ exists n, w_out w = User n.

(** An interpreter some program can have produced. *)
Definition possible (w : world) : Prop := exists w0 h, fresh_world w0 /\ w_text w0 = [] /\ acts h w0 = Some w.

(** The model with number [i] logs to a file. *)
Definition logs (w : world) (i : nat) : Prop := exists g, nth_error (w_models w) i = Some g /\ g_logfile g = true.

(** [plain] names only models without a log file. *)
Definition plain_ok (plain : nat -> bool) (w : world) : Prop := forall i, plain i = true -> ~ logs w i.

(** Actions that should leave the interpreter's stdout as it is: prints, builds,
    constructors without a log file or that raise, runs that raise, runs of models
    without a log file. *)
Definition quiet (plain : nat -> bool) (a : action) : Prop :=
  match a with
  | NewModel _ logfile opens => logfile = false \/ opens = false
  | RunCall i _ ok => ok = false \/ plain i = true
  | BuildCall _ _ _ | Print _ => True
  | SetStdout _ => False
  end.

(** The lines a constructor prints: at log level 2 and above the title, and with a
    log file a line that opens a block of literal text, or closes the one before the
    title and opens the next. *)
Definition opening (log : Z) (logfile : bool) : list string :=
  match logfile, (2 <=? log)%Z with
  | false, false => []
  | false, true => ["TrussPy - Truss Solver for Python"%string]
  | true, false => ["```"%string]
  | true, true => ["```"%string; "TrussPy - Truss Solver for Python"%string; "```"%string]
  end.

(** The lines an action prints. *)
Definition lines_of (a : action) : list string :=
  match a with
  | NewModel log logfile opens => if logfile && negb opens then [] else opening log logfile
  | BuildCall _ ls _ | RunCall _ ls _ => ls
  | Print l => [l]
  | SetStdout _ => []
  end.

(** Models are finished in reverse order of their creation: [nested n h n'] holds
    for histories that start with [n] models and end with [n'] in which every
    logging model is created, used and run once, and what happens in between is
    itself such a history. Models without log file may be used at any time:
    [plain] tells which models have none. *)
Inductive nested (plain : nat -> bool) : nat -> list action -> nat -> Prop :=
| nested_none : forall n, nested plain n [] n
| nested_print : forall n l, nested plain n [Print l] n
| nested_build : forall n i ls ok, nested plain n [BuildCall i ls ok] n
| nested_plain_run : forall n i ls ok, plain i = true -> nested plain n [RunCall i ls ok] n
| nested_raises : forall n log, nested plain n [NewModel log true false] n
| nested_plain : forall n log o, nested plain n [NewModel log false o] (S n)
| nested_model : forall n log h n' ls, nested plain (S n) h n' ->
    nested plain n (NewModel log true true :: h ++ [RunCall n ls true]) n'
| nested_seq : forall n h1 m h2 n', nested plain n h1 m -> nested plain m h2 n' -> nested plain n (h1 ++ h2) n'.
