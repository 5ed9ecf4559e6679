(** * Vocabulary for the properties of the solver *)
From Coq Require Import List ZArith Bool Arith.
Import ListNotations.
From Verif Require Import Num Vec Analysis Solver.

(** The Euclidean norm: the root of the sum of squares. *)
Section Norm.
  Context {F : Type} `{NF : Num F}.
  Fixpoint dots (a b : list F) : F :=
    match a, b with
    | x :: a', y :: b' => fadd (fmul x y) (dots a' b')
    | _, _ => f0
    end.
  Definition euclid (x : list F) : F := fsqrt (dots x x).
End Norm.

(** ** Newton iterations *)
Section Newton.
  Context {F : Type} `{NF : Num F}.
  Variable solve : list (list F) -> list F -> list F.
  Context {S : Type}.
  Variable fn : list F -> S -> res (S * list F).
  Variable dfn : list F -> S -> res (S * list (list F)).

  (** One Newton iteration: new iterate, residual there, correction, state. *)
  Record iter := It { it_x : list F; it_f : list F; it_dx : list F; it_s : S }.

  (** From [x]: Jacobian and residual at [x], [dx] solves J dx = -f, the new
      iterate is [x + dx], and the residual is evaluated there. *)
  Definition iterate (x : list F) (s : S) (t : iter) : Prop :=
    exists s1 Km s2 fv,
      dfn x s = Ok (s1, Km) /\ fn x s1 = Ok (s2, fv) /\
      it_dx t = solve Km (map fopp fv) /\
      bcast2 fadd x (it_dx t) = Ok (it_x t) /\
      fn (it_x t) s2 = Ok (it_s t, it_f t).

  (** Consecutive iterations from [x]. *)
  Inductive trace : list F -> S -> list iter -> Prop :=
  | trace_nil x s : trace x s []
  | trace_cons x s t ts : iterate x s t -> trace (it_x t) (it_s t) ts -> trace x s (t :: ts).

  Definition converged (ftol xtol : F) (t : iter) : bool :=
    fltb (euclid (it_f t)) ftol && fltb (euclid (it_dx t)) xtol.
End Newton.
Arguments iter : clear implicits.
Arguments It {F S}. Arguments it_x {F S}. Arguments it_f {F S}. Arguments it_dx {F S}. Arguments it_s {F S}.

(** An ERROR line was printed. *)
Definition error_line (m : msg) : Prop := m = MError1 \/ m = MError2.

(** ** Recorded increments of pathfollow *)
Section Path.
  Context {F : Type} `{NF : Num F}.
  Local Open Scope num_scope.
  Variable solve : list (list F) -> list F -> list F.
  Notation AN := (analysis F).
  Variables (g : gfun F) (dg : kfun F) (cfg : pfcfg F).

  (** What is recorded: x is stored in the analysis object. *)
  Definition recorded (x : list F) (an : AN) : AN :=
    set_lpf (last x f0) (set_Ured (removelast x) (set_Vred x an)).

  (** A Newton run from [xs] for control component [j] with step limits [dxmax],
      starting at the solution [x0] of the previous increment, ended with [t]:
      the control component is to move by its step limit in direction of [j]. *)
  Definition corrector (x0 : list F) (j : Z) (dxmax : list F) (xmax : F) (xs : list F) (nfev : Z)
      (an : AN) (ts : list (iter F AN)) (t : iter F AN) : Prop :=
    exists xj dj,
      py_get x0 (Z.abs j - 1) = Ok xj /\ py_get dxmax (Z.abs j - 1) = Ok dj /\
      xmax = xj + dj * fofZ (Z.sgn j) /\
      trace solve (f_ext g x0 j xmax false) (dfdx dg j) xs an (ts ++ [t]) /\
      (forall u, In u ts -> converged (cf_ftol cfg) (cf_xtol cfg) u = false) /\
      (Z.of_nat (length (ts ++ [t])) <= nfev)%Z.

  (** The increment from [x0] to [x] relative to the step limits [dxmax] does not
      exceed dxtol: in the locked control component [j], or in all components. *)
  Definition within (x0 x dxmax : list F) (j : Z) : Prop :=
    exists Dx q, bcast2 fsub x x0 = Ok Dx /\ bcast2 fdiv Dx dxmax = Ok q /\
      if cf_jfixed cfg
      then exists qj, py_get q (Z.abs j - 1) = Ok qj /\ fleb (fabs qj) (cf_dxtol cfg) = true
      else forall v, In v q -> fleb (fabs v) (cf_dxtol cfg) = true.

  (** What is claimed of the control component and of the step limits in use. *)
  Variable I : Z -> list F -> Prop.

  (** Accepted: the Newton run converged, the increment is within the limits, the
      residual was evaluated once more with the write flag and the result stored. *)
  Definition accepted (x0 x : list F) (an' : AN) : Prop :=
    exists j dxmax xmax xs nfev an ts t an2 v, I j dxmax /\
      (cf_nfev cfg - 1 <= nfev <= cf_nfev cfg)%Z /\
      corrector x0 j dxmax xmax xs nfev an ts t /\
      converged (cf_ftol cfg) (cf_xtol cfg) t = true /\
      it_x t = x /\ within x0 x dxmax j /\
      f_ext g x0 j xmax true x (set_dVmax dxmax (it_s t)) = Ok (an2, v) /\
      an' = recorded x an2.

  (** Is the predictor switched on? *)
  Variable jpre : bool.

  (** Skipped: the one-iteration predictor met both tolerances; [x0] is kept. *)
  Definition skipped (x0 x : list F) (an' : AN) : Prop :=
    jpre = true /\ cf_jfixed cfg = false /\
    exists j dxmax xmax an t, I j dxmax /\
      corrector x0 j dxmax xmax x0 1 an [] t /\
      converged (cf_ftol cfg) (cf_xtol cfg) t = true /\
      x = x0 /\ an' = recorded x0 (it_s t).

  (** Failed: the last iterate of a Newton run is stored although the run did not
      converge or the increment is not within the limits. *)
  Definition failed (x0 x : list F) (an' : AN) : Prop :=
    exists j dxmax xmax xs nfev an ts t, I j dxmax /\
      (cf_nfev cfg - 1 <= nfev <= cf_nfev cfg)%Z /\
      corrector x0 j dxmax xmax xs nfev an ts t /\
      it_x t = x /\ an' = recorded x (set_dVmax dxmax (it_s t)) /\
      (converged (cf_ftol cfg) (cf_xtol cfg) t = false \/ ~ within x0 x dxmax j).

  (** Consecutive records from [x0], each accepted or skipped. *)
  Inductive good_records : list F -> list (list F * AN) -> Prop :=
  | good_nil x0 : good_records x0 []
  | good_cons x0 x an' rest : accepted x0 x an' \/ skipped x0 x an' ->
      good_records x rest -> good_records x0 ((x, an') :: rest).

  (** Records from [x0] with printed lines [out]: all good and no ERROR line, or
      all good but the last, which failed, and the last line is an ERROR line. *)
  Definition records_ok (x0 : list F) (recs : list (list F * AN)) (out : list msg) : Prop :=
    (good_records x0 recs /\ (forall m, In m out -> ~ error_line m)) \/
    (exists rs x an' ms e, recs = rs ++ [(x, an')] /\ good_records x0 rs /\
       failed (last (map fst rs) x0) x an' /\
       out = ms ++ [e] /\ error_line e /\ (forall m, In m ms -> ~ error_line m)).
End Path.
