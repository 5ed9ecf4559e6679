(** * The instance of [Num] on Coq's real numbers (exact arithmetic)

    [fnan] is mapped to 0: theorems over R speak about models whose elements
    were given material and geometry, so that no NaN occurs. *)
From Coq Require Import List ZArith Bool Reals Lra.
Import ListNotations.
From Verif Require Import Num.
Local Open Scope R_scope.

Definition Rltb (x y : R) : bool := if Rlt_dec x y then true else false.
Definition Rleb (x y : R) : bool := if Rle_dec x y then true else false.
Definition Reqb (x y : R) : bool := if Req_EM_T x y then true else false.
(** round toward zero *)
Definition Rtrunc (x : R) : R :=
  if Rle_dec 0 x then IZR (Int_part x) else - IZR (Int_part (- x)).

#[global] Instance NumR : Num R := {|
  f0 := 0; f1 := 1; fnan := 0;
  fadd := Rplus; fsub := Rminus; fmul := Rmult; fdiv := Rdiv;
  fopp := Ropp; fabs := Rabs; fsqrt := sqrt; ftrunc := Rtrunc;
  fltb := Rltb; fleb := Rleb; feqb := Reqb; fofZ := IZR |}.

Lemma Rltb_true x y : Rltb x y = true <-> x < y.
Proof. unfold Rltb. destruct (Rlt_dec x y); split; intros; auto; discriminate. Qed.
Lemma Rltb_false x y : Rltb x y = false <-> y <= x.
Proof. unfold Rltb. destruct (Rlt_dec x y); split; intros; auto; try discriminate; lra. Qed.
Lemma Rleb_true x y : Rleb x y = true <-> x <= y.
Proof. unfold Rleb. destruct (Rle_dec x y); split; intros; auto; discriminate. Qed.
Lemma Rleb_false x y : Rleb x y = false <-> y < x.
Proof. unfold Rleb. destruct (Rle_dec x y); split; intros; auto; try discriminate; lra. Qed.
Lemma Reqb_true x y : Reqb x y = true <-> x = y.
Proof. unfold Reqb. destruct (Req_EM_T x y); split; intros; auto; discriminate. Qed.
Lemma Reqb_false x y : Reqb x y = false <-> x <> y.
Proof. unfold Reqb. destruct (Req_EM_T x y); split; intros; auto; try discriminate; tauto. Qed.

(** Unfold the class operations at R. *)
Ltac numR :=
  cbn [f0 f1 fnan fadd fsub fmul fdiv fopp fabs fsqrt ftrunc fltb fleb feqb fofZ NumR] in *.

Lemma fsignR x : fsign x = if Rlt_dec 0 x then 1 else if Rlt_dec x 0 then -1 else 0.
Proof.
  unfold fsign. numR. unfold Rltb, Reqb.
  destruct (Rlt_dec 0 x); auto. destruct (Rlt_dec x 0); [lra|].
  destruct (Req_EM_T x 0); lra.
Qed.
