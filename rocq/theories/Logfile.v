(** * Where the printed text goes: sys.stdout and the log file of a model

    Models the constructor model.py:70-124 and the end of [Model.run]
    model.py:439-441.  The interpreter's [sys.stdout] is the only state shared by
    several models.  Simplifications: the lines printed by [build] and [run] are
    arguments of the action (their text plays no role here); two log files of the
    same name are different streams; files are never closed (the code never
    closes them). *)
From Coq Require Import List ZArith Bool Arith String.
Import ListNotations.
From Verif Require Import Num.

(** A text stream: one of the user's, or the log file opened by the constructor
    of the i-th model. *)
Inductive stream := User (n : nat) | LogOf (i : nat).

(** The attributes [stdout] and [logfile] of a model, model.py:88-89. *)
Record logging := Logging { g_saved : stream; g_logfile : bool }.

(** The interpreter: [sys.stdout], the models constructed so far, and all text
    printed so far with the stream that received it. *)
Record world := World { w_out : stream; w_models : list logging; w_text : list (stream * string) }.

(** What a program does with the interpreter. [BuildCall] and [RunCall] carry the
    number of the model, the lines it prints, and whether it returns normally
    (otherwise an exception leaves it). [NewModel] carries the parameters [log]
    and [logfile] and whether the file can be opened. *)
Inductive action :=
| NewModel (log : Z) (logfile : bool) (opens : bool)
| BuildCall (i : nat) (lines : list string) (ok : bool)
| RunCall (i : nat) (lines : list string) (ok : bool)
| Print (line : string)
| SetStdout (s : stream).

(** [print], one line *)
Definition out (l : string) (w : world) : world :=
  World (w_out w) (w_models w) (w_text w ++ [(w_out w, l)]).
Definition outs (ls : list string) (w : world) : world := fold_left (fun w l => out l w) ls w.

Definition fence : string := "```".
Definition banner : string := "TrussPy - Truss Solver for Python".

(** model.py:95-117. The title block (one call of [print]) is abbreviated. *)
Definition header (log : Z) (logfile : bool) : list string :=
  (if (1 <? log)%Z then (if logfile then [fence] else []) ++ [banner] else [])
    ++ (if logfile then [fence] else []).

(** model.py:70-124 *)
Definition new_model (log : Z) (logfile opens : bool) (w : world) : world :=
  if logfile then
    if opens then
      (* self.stdout = sys.stdout; sys.stdout = open(...) *)
      outs (header log true)
           (World (LogOf (List.length (w_models w))) (w_models w ++ [Logging (w_out w) true]) (w_text w))
    else w                                              (* open raises: no model *)
  else outs (header log false) (World (w_out w) (w_models w ++ [Logging (w_out w) false]) (w_text w)).

(** The effect of [run] on the interpreter: its lines, then model.py:439-441,
    which an exception skips. *)
Definition run_call (g : logging) (lines : list string) (ok : bool) (w : world) : world :=
  let w := outs lines w in
  if ok && g_logfile g then World (g_saved g) (w_models w) (w_text w) else w.

(** One action; [None] if the named model or stream does not exist. *)
Definition act (a : action) (w : world) : option world :=
  match a with
  | NewModel log logfile opens => Some (new_model log logfile opens w)
  | BuildCall i lines _ =>
      match nth_error (w_models w) i with Some _ => Some (outs lines w) | None => None end
  | RunCall i lines ok =>
      match nth_error (w_models w) i with Some g => Some (run_call g lines ok w) | None => None end
  | Print l => Some (out l w)
  | SetStdout s =>
      match s with
      | LogOf i => if i <? List.length (w_models w) then Some (World s (w_models w) (w_text w)) else None
      | User _ => Some (World s (w_models w) (w_text w))
      end
  end.

Fixpoint acts (h : list action) (w : world) : option world :=
  match h with
  | [] => Some w
  | a :: h => match act a w with Some w' => acts h w' | None => None end
  end.
