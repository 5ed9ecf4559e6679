(** * Vocabulary for the printed tables *)
From Coq Require Import List ZArith Bool Arith Permutation Sorted.
Import ListNotations.
From Verif Require Import Num Vec Handlers Analysis Equil Solver Run Text SpecSolver SpecRun SpecText.

Section Spec.
  Context {F : Type} `{NF : Num F}.
  Local Open Scope num_scope.
  Notation L := (line F).

  (** ** What a reader looks for *)

  (** The rows of the iteration tables. *)
  Definition rows_in (t : list L) : list L :=
    filter (fun l => match l with LPre _ _ _ _ _ _ | LIter _ _ | LTotal _ _ _ _ _ _ _ _ _ _ => true | _ => false end) t.
  (** The rows of the parameter tables. *)
  Definition params_in (t : list L) : list (param F) :=
    flat_map (fun l => match l with LParam p => [p] | _ => [] end) t.
  (** The constant forces and the start vectors shown at the beginning of a step. *)
  Definition constants_in (t : list L) : list (list (list F)) :=
    flat_map (fun l => match l with LConst f => [f] | _ => [] end) t.
  Definition starts_in (t : list L) : list (list F) :=
    flat_map (fun l => match l with LStart v => [v] | _ => [] end) t.

  (** The table of the settings in force. *)
  Definition settings_table (st : settings F) : list (param F) :=
    [PIncs (s_incs st); PCycl (s_cycl st); PNfev (s_nfev st); PDu (s_du st); PDlpf (s_dlpf st);
     PJ0; PJfixed (s_jfixed st); PDxtol (s_dxtol st); PXtol (s_xtol st); PFtol (s_ftol st)] ++
    (if s_stepcontrol st
     then [PStepcontrol true; PMinfac (s_minfac st); PMaxfac (s_maxfac st); PReduce (f1 / s_reduce st); PIncrease (s_increase st)]
     else []).

  (** ** The columns of a table *)

  (** [np.argsort] of a float array: the positions in some order along which numbers
      (entries that compare with themselves) do not decrease. *)
  Definition numbers (l : list F) : Prop := Forall (fun v => fleb v v = true) l.
  Definition argsort_sorts (argsort : list F -> list nat) : Prop :=
    forall l, Permutation (argsort l) (seq 0 (length l)) /\
      (numbers l -> StronglySorted (fun a b => fleb a b = true) (map (fun i => nth i l f0) (argsort l))).

  (** [ls] lists the components of [q] that are largest in size, the largest first:
      their numbers, counted from 1, and their values as size times sign. *)
  Definition leaders (q : list F) (ls : list (nat * F)) : Prop :=
    exists ps rest, Permutation (ps ++ rest) (seq 0 (length q)) /\
      ls = map (fun p => (S p, fabs (nth p q f0) * fsign (nth p q f0))) ps /\
      (numbers (map fabs q) ->
       StronglySorted (fun a b => fleb b a = true) (map (fun p => fabs (nth p q f0)) ps) /\
       forall p r, In p ps -> In r rest -> fleb (fabs (nth r q f0)) (fabs (nth p q f0)) = true).

  (** Three columns; with two components only the third is empty. *)
  Definition lead3 : Type := ((nat * F) * (nat * F) * (nat * F))%type.
  Definition three (q : list F) (l : lead3) : Prop :=
    let '(c1, c2, c3) := l in
    leaders q [c1; c2; c3] \/ length q = 2%nat /\ leaders q [c1; c2] /\ c3 = (0%nat, fnan).
  Definition total (z n j : Z) (fn : F) (l : lead3) : L :=
    let '((i1, v1), (i2, v2), (i3, v3)) := l in LTotal z n j fn i1 v1 i2 v2 i3 v3.

  (** The control component is the leading one, with its sign. *)
  Definition points (c : nat * F) (j : Z) : Prop :=
    j = if fltb f0 (snd c) then Z.of_nat (fst c) else if fltb (snd c) f0 then (- Z.of_nat (fst c))%Z else 0%Z.

  (** ** The tables of an increment *)

  (** Rows of iterations, numbered from 1. *)
  Definition iters (ns : list F) : list L :=
    map (fun p => LIter (1 + Z.of_nat (fst p)) (snd p)) (combine (seq 0 (length ns)) ns).

  (** The tables of the cycles of one increment with control component [j], after
      [npre] iterations of the predictor, the first one with number [z].  Each table has
      its rows of iterations and a row of totals: number of the cycle, number of
      iterations, control component, norm of the last iteration, and leading
      components.  A further cycle goes on with the same control component or the
      leading one.  [je], [fn], [l] are shown in the last row. *)
  Inductive table : Z -> Z -> Z -> list L -> Z -> F -> lead3 -> Prop :=
  | tb_last j npre z ns fn l :
      table j npre z (iters (ns ++ [fn]) ++ [total z (Z.of_nat (S (length ns)) + npre) j fn l]) j fn l
  | tb_again j npre z ns fn l j' z' rows je fe le :
      (j' = j \/ points (fst (fst l)) j') -> (z' = z + 1 \/ z' = 2)%Z ->
      table j' 0 z' rows je fe le ->
      table j npre z (iters (ns ++ [fn]) ++ total z (Z.of_nat (S (length ns)) + npre) j fn l :: rows) je fe le.

  (** The rows of one increment that begins with control component [j] and leaves
      [j']; the last row of totals if there is one. *)
  Inductive inc_table (j : Z) : list L -> Z -> option (Z * F * lead3) -> Prop :=
  | it_skip fn c j' : points c j' -> inc_table j [LPre 1 0 j fn (fst c) (snd c)] j' None
  | it_pre fn c jp rows je fe le j' : points c jp -> table jp 1 1 rows je fe le -> points (fst (fst le)) j' ->
      inc_table j (LPre 1 0 j fn (fst c) (snd c) :: rows) j' (Some (je, fe, le))
  | it_none rows je fe le j' : table j 0 1 rows je fe le -> points (fst (fst le)) j' ->
      inc_table j rows j' (Some (je, fe, le)).

  (** [part] is the text of the increment that led from [x0] to the record [rec].
      The last row of totals shows the control component and the leading components of
      the change relative to the allowed one, both as recorded, and a norm below
      [ftol] unless there is an ERROR line.  There is no such row only where an
      increment may be skipped after the predictor; nothing changes then. *)
  Definition inc_shows (ftol : F) (skips : Prop) (x0 : list F) (j : Z) (part : list L)
      (rec : list F * analysis F) (j' : Z) : Prop :=
    exists i body o, part = LIncrement i :: body /\ increments_in body = [] /\ inc_table j (rows_in body) j' o /\
      match o with
      | None => skips /\ fst rec = x0
      | Some (je, fn, l) =>
          je = a_j (snd rec) /\
          ((forall e, In e (messages_in body) -> ~ error_line e) -> fltb fn ftol = true) /\
          exists D q, bcast2 fsub (fst rec) x0 = Ok D /\ bcast2 fdiv D (a_dVmax (snd rec)) = Ok q /\ three q l
      end.

  (** The texts of consecutive increments. *)
  Inductive path_shows (ftol : F) (skips : Prop) : list F -> Z -> list (list L) -> list (list F * analysis F) -> Prop :=
  | ps_nil x0 j : path_shows ftol skips x0 j [] []
  | ps_cons x0 j part rec j' parts recs : inc_shows ftol skips x0 j part rec j' ->
      path_shows ftol skips (fst rec) j' parts recs -> path_shows ftol skips x0 j (part :: parts) (rec :: recs).

  (** The text of a step: lines without tables, then one part per recorded
      increment.  The first control component is the last one, the load factor. *)
  Definition step_shows (ftol : F) (skips : Prop) (t : list L) (lg : step_log F) : Prop :=
    exists k head parts, t = LStep k :: head ++ concat parts /\ steps_in (head ++ concat parts) = [] /\
      increments_in head = [] /\ rows_in head = [] /\
      path_shows ftol skips (a_Ured (lg_start lg) ++ [f0]) (Z.of_nat (S (length (a_Ured (lg_start lg))))) parts (lg_recs lg).
End Spec.
