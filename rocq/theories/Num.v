(** * Arithmetic, exceptions and NumPy array primitives

    Python floats are modelled by an arbitrary type [F] with the operations of
    the class [Num] below.  The class has no laws: a theorem proved for every
    [Num F] holds for IEEE doubles (NaN, infinities, rounding included) as well
    as for the reals.  [NumR] (file NumR.v) is the instance on Coq's reals and
    [NumFloat] (file FloatRun.v) the instance on primitive 64-bit floats. *)
From Coq Require Import List ZArith Bool Arith.
Import ListNotations.

Class Num (F : Type) := {
  f0 : F;                        (* 0 *)
  f1 : F;                        (* 1 *)
  fnan : F;                      (* np.nan *)
  fadd : F -> F -> F;
  fsub : F -> F -> F;
  fmul : F -> F -> F;
  fdiv : F -> F -> F;            (* NumPy division: never raises *)
  fopp : F -> F;
  fabs : F -> F;
  fsqrt : F -> F;
  ftrunc : F -> F;               (* cast to an integer dtype: round toward zero *)
  fltb : F -> F -> bool;
  fleb : F -> F -> bool;
  feqb : F -> F -> bool;
  fofZ : Z -> F                  (* Python int -> float *)
}.

Declare Scope num_scope.
Delimit Scope num_scope with num.
Infix "+" := fadd : num_scope.
Infix "-" := fsub : num_scope.
Infix "*" := fmul : num_scope.
Infix "/" := fdiv : num_scope.
Notation "- x" := (fopp x) : num_scope.
Infix "<?" := fltb : num_scope.
Infix "<=?" := fleb : num_scope.
Infix "=?" := feqb : num_scope.

(** Python exceptions that the modelled code can raise. *)
Inductive exn :=
| TypeError | ValueError | IndexError | AttributeError
| UnboundLocalError | OSError | ZeroDivisionError | KeyError.

(** Outcome of a Python call.  [Timeout] is the exhaustion of the fuel given to
    a [while] loop; it is not a Python outcome. *)
Inductive res (A : Type) :=
| Ok (a : A)
| Err (e : exn)
| Timeout.
Arguments Ok {A} a.
Arguments Err {A} e.
Arguments Timeout {A}.

Definition bind {A B} (r : res A) (k : A -> res B) : res B :=
  match r with Ok a => k a | Err e => Err e | Timeout => Timeout end.
Notation "x <- r ;; k" := (bind r (fun x => k))
  (at level 61, r at next level, right associativity).
Notation "' p <- r ;; k" := (bind r (fun p => k))
  (at level 61, p pattern, r at next level, right associativity).

Fixpoint foldM {A S} (step : S -> A -> res S) (l : list A) (s : S) : res S :=
  match l with
  | [] => Ok s
  | a :: l' => s' <- step s a ;; foldM step l' s'
  end.

Section Prims.
  Context {A : Type}.

  (** [a[i] = v] for one in-range index. *)
  Fixpoint set_nth (i : nat) (v : A) (l : list A) : list A :=
    match l, i with
    | [], _ => []
    | _ :: l', O => v :: l'
    | x :: l', S i' => x :: set_nth i' v l'
    end.

  (** Fancy indexing [a[idx]]: IndexError if some index is out of range. *)
  Fixpoint gather (a : list A) (idx : list nat) : res (list A) :=
    match idx with
    | [] => Ok []
    | i :: idx' =>
        match nth_error a i with
        | None => Err IndexError
        | Some x => xs <- gather a idx' ;; Ok (x :: xs)
        end
    end.

  (** [a[idx][0]]. *)
  Definition gather0 (a : list A) (idx : list nat) : res A :=
    xs <- gather a idx ;;
    match xs with [] => Err IndexError | x :: _ => Ok x end.

  (** [a[idx] = [v]] (one row broadcast to all selected rows). *)
  Definition put (a : list A) (idx : list nat) (v : A) : res (list A) :=
    if forallb (fun i => i <? length a) idx
    then Ok (fold_left (fun acc i => set_nth i v acc) idx a)
    else Err IndexError.

  (** [np.delete(a, idx, axis=0)]. *)
  Definition delete_at (a : list A) (idx : list nat) : list A :=
    map snd (filter (fun p => negb (existsb (Nat.eqb (fst p)) idx))
                    (combine (seq 0 (length a)) a)).

  (** Python indexing with a possibly negative integer [a[i]]. *)
  Definition py_pos (n : nat) (i : Z) : res nat :=
    if (0 <=? i)%Z && (i <? Z.of_nat n)%Z then Ok (Z.to_nat i)
    else if (- Z.of_nat n <=? i)%Z && (i <? 0)%Z then Ok (Z.to_nat (Z.of_nat n + i))
    else Err IndexError.

  Definition py_get (a : list A) (i : Z) : res A :=
    p <- py_pos (length a) i ;;
    match nth_error a p with Some x => Ok x | None => Err IndexError end.

  (** [np.where(mask)[0]]: the indices at which the mask is true. *)
  Definition where_true (mask : list bool) : list nat :=
    map fst (filter snd (combine (seq 0 (length mask)) mask)).
End Prims.

(** [np.where(labels == l)]. *)
Definition positions (l : Z) (labels : list Z) : list nat :=
  where_true (map (Z.eqb l) labels).

(** Element-wise operation on two arrays of the same shape. *)
Fixpoint map2 {A B C} (f : A -> B -> C) (la : list A) (lb : list B) : list C :=
  match la, lb with
  | a :: la', b :: lb' => f a b :: map2 f la' lb'
  | _, _ => []
  end.

(** The same with NumPy broadcasting of 1-D arrays: a length-1 array is
    repeated, other length mismatches raise. *)
Definition bcast2 {A B C} (f : A -> B -> C) (la : list A) (lb : list B) : res (list C) :=
  if length la =? length lb then Ok (map2 f la lb)
  else match la, lb with
       | _, [b] => Ok (map (fun a => f a b) la)
       | [a], _ => Ok (map (f a) lb)
       | _, _ => Err ValueError
       end.

(** Scalar helpers of NumPy/Python. *)
Section Scalars.
  Context {F : Type} `{NF : Num F}.
  Local Open Scope num_scope.

  (** [np.sign] (NaN is returned unchanged). *)
  Definition fsign (x : F) : F :=
    if f0 <? x then f1 else if x <? f0 then - f1 else if x =? f0 then f0 else x.

  Definition fisnan (x : F) : bool := negb (x =? x).

  (** [np.dot] of 1-D arrays; summation order is a simplification (BLAS). *)
  Fixpoint fdot (a b : list F) : F :=
    match a, b with
    | x :: a', y :: b' => x * y + fdot a' b'
    | _, _ => f0
    end.

  (** [numpy.linalg.norm] of a 1-D array: sqrt(dot(x,x)). *)
  Definition fnorm (x : list F) : F := fsqrt (fdot x x).

  (** [10**-n] for a Python int [n] (model.py:366-367). *)
  Definition pow10neg (n : Z) : F :=
    if (0 <=? n)%Z then f1 / fofZ (10 ^ n) else fofZ (10 ^ (- n)).
End Scalars.
