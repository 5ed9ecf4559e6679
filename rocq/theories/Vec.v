(** * Three-component vectors and 3x3 blocks

    [ndim] is 3 throughout (handlers/handler_settings.py:14, default). *)
From Coq Require Import List ZArith Bool Arith.
Import ListNotations.
From Verif Require Import Num.

Record v3 (A : Type) := V3 { vx : A; vy : A; vz : A }.
Arguments V3 {A} vx vy vz.
Arguments vx {A} v.
Arguments vy {A} v.
Arguments vz {A} v.

Definition vget {A} (v : v3 A) (c : nat) : A :=
  match c with 0 => vx v | 1 => vy v | _ => vz v end.

Definition vset {A} (v : v3 A) (c : nat) (x : A) : v3 A :=
  match c with
  | 0 => V3 x (vy v) (vz v)
  | 1 => V3 (vx v) x (vz v)
  | _ => V3 (vx v) (vy v) x
  end.

Definition vmap {A B} (f : A -> B) (v : v3 A) : v3 B := V3 (f (vx v)) (f (vy v)) (f (vz v)).
Definition vmap2 {A B C} (f : A -> B -> C) (v : v3 A) (w : v3 B) : v3 C :=
  V3 (f (vx v) (vx w)) (f (vy v) (vy w)) (f (vz v) (vz w)).

Definition vlist {A} (v : v3 A) : list A := [vx v; vy v; vz v].

(** [a.flatten()] of an (n,3) array. *)
Definition vflat {A} (l : list (v3 A)) : list A := flat_map vlist l.

(** 3x3 block: a vector of rows. *)
Definition m3 (A : Type) := v3 (v3 A).

(** [a.reshape(len(a.flatten()))[dof] = vals]: row-major position [k] of an
    (n,3) array is row [k/3], component [k mod 3] (reshape returns a view). *)
Definition put_flat1 {A} (a : list (v3 A)) (k : nat) (x : A) : list (v3 A) :=
  match nth_error a (k / 3) with
  | Some row => set_nth (k / 3) (vset row (k mod 3) x) a
  | None => a
  end.

(** Writing an array of values: equal length, or length 1 (broadcast);
    otherwise ValueError; an out-of-range position is an IndexError. *)
Definition scatter {A} (a : list (v3 A)) (dof : list nat) (vals : list A) : res (list (v3 A)) :=
  if forallb (fun k => k <? 3 * length a) dof then
    if length vals =? length dof then
      Ok (fold_left (fun acc p => put_flat1 acc (fst p) (snd p)) (combine dof vals) a)
    else match vals with
         | [x] => Ok (fold_left (fun acc k => put_flat1 acc k x) dof a)
         | _ => Err ValueError
         end
  else Err IndexError.

Section VecNum.
  Context {F : Type} `{NF : Num F}.
  Local Open Scope num_scope.

  Definition vzero : v3 F := V3 f0 f0 f0.
  Definition vadd (a b : v3 F) : v3 F := vmap2 fadd a b.
  Definition vsub (a b : v3 F) : v3 F := vmap2 fsub a b.
  Definition vneg (a : v3 F) : v3 F := vmap fopp a.
  Definition vscale (s : F) (a : v3 F) : v3 F := vmap (fmul s) a.
  Definition vdivs (a : v3 F) (s : F) : v3 F := vmap (fun x => x / s) a.
  Definition vdot (a b : v3 F) : F := vx a * vx b + vy a * vy b + vz a * vz b.
  Definition vnorm (a : v3 F) : F := fsqrt (vdot a a).

  Definition mzero : m3 F := V3 vzero vzero vzero.
  Definition madd (a b : m3 F) : m3 F := vmap2 vadd a b.
  Definition msub (a b : m3 F) : m3 F := vmap2 vsub a b.
  Definition mneg (a : m3 F) : m3 F := vmap vneg a.
  Definition mscale (s : F) (a : m3 F) : m3 F := vmap (vscale s) a.
  (** [np.outer] and [np.eye(3)]. *)
  Definition vouter (a b : v3 F) : m3 F := vmap (fun x => vscale x b) a.
  Definition meye : m3 F := V3 (V3 f1 f0 f0) (V3 f0 f1 f0) (V3 f0 f0 f1).
End VecNum.
