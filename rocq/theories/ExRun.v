(** * Sample sessions evaluated by the kernel, used in examples *)
From Coq Require Import List ZArith Bool Arith Lia.
Import ListNotations.
From Verif Require Import Num Vec Handlers Material Analysis Truss Equil Solver Run EditFacts SpecMech SpecBuild SpecRun NumFix.

Section Sample.
  Context {F : Type} `{NF : Num F}.
  (** The truss of NumFix.v with any settings, as the user describes it. *)
  Definition xr_at (st : settings F) : model F :=
    Model xr_nodes (Some xr_elems) xr_bounds xr_forces st None.
  Definition xr_ns : list (Z * v3 F) :=
    [(1%Z, V3 f0 f0 f0); (5%Z, V3 (q 3 1) (q 8 1) f0); (2%Z, V3 (q 3 1) (q 4 1) f0)].
  Definition xr_ms : list (member F) :=
    [Mb 7 1 2 UmatEl [q 1 1; f0; f0] [f1]; Mb 9 2 5 UmatPl [q 1 1; q 1 10; q 1 50] [f1]].
  Definition xr_bs : list (Z * list Z) := [(1, [0; 0; 0]); (5, [0; 0; 0]); (2, [1; 1; 0])]%Z.
  Definition xr_fs : list (Z * list F) := [(2%Z, [f0; q (-1) 1; f0; q 1 1; f0; f0])].

  Lemma xr_described st : described (xr_at st) xr_ns xr_ms xr_bs xr_fs.
  Proof.
    unfold described. split; [split; reflexivity|]. split.
    { split; [reflexivity|]. split; [reflexivity|]. repeat constructor. }
    split. { split; [reflexivity|]. split; [reflexivity|]. repeat constructor. }
    split. { eexists. split; [reflexivity|]. repeat split. }
    split; [cbn; lia|].
    split. { repeat constructor; cbn; intros H; repeat destruct H as [H|H]; try discriminate; auto. }
    split. { repeat constructor; cbn; intros H; repeat destruct H as [H|H]; try discriminate; auto. }
    split. { cbn. intros r [<-|[<-|[<-|[]]]]; reflexivity. }
    intros b [<-|[<-|[]]]; cbn; repeat split; auto; discriminate.
  Qed.

  (** Settings: digits of ftol and xtol, j_pre, j_fixed, j0, nfev, incs, nsteps. *)
  Definition xr_settings (ftol xtol : Z) (jpre jfix : bool) (j0 : option Z) (nfev incs nsteps : Z) : settings F :=
    Settings (Same incs) true (q 4 1) (q 1 100) (q 1 2) (q 8 1) (q 5 4) ftol xtol 4%Z nfev
      (q 1 200) (q 1 20) (Same (0%Z, None)) 0%Z j0 jpre jfix 0%Z nsteps.
End Sample.

(** Build and run, then a test on the built model, the final model and the lines. *)
Definition xr_test (st : settings fix_) (test : model fix_ -> model fix_ -> list msg -> bool) : bool :=
  match build argsort_ins (xr_at st) with
  | Ok m1 => match run argsort_fx gauss m1 40 with Ok (m2, out) => test m1 m2 out | _ => false end
  | _ => false
  end.

Lemma xr_tested st test : xr_test st test = true ->
  exists m1 m2 out, build argsort_ins (xr_at st) = Ok m1 /\ run argsort_fx gauss m1 40 = Ok (m2, out) /\
    test m1 m2 out = true.
Proof.
  unfold xr_test. destruct (build _ _) as [m1| |]; try discriminate.
  destruct (run _ _ _ _) as [[m2 out]| |] eqn:E; try discriminate. eauto 10.
Qed.

(** A test on what is built. *)
Definition on_built {A} (d : A) (f : built fix_ -> A) (m : model fix_) : A :=
  match m_built m with Some u => f u | None => d end.

(** Equality tests. *)
Fixpoint eq_list {A} (eq : A -> A -> bool) (a b : list A) : bool :=
  match a, b with
  | [], [] => true
  | x :: a, y :: b => eq x y && eq_list eq a b
  | _, _ => false
  end.
Definition eq_fix (a b : fix_) : bool := Z.eqb (fx a) (fx b).

Lemma eq_fix_ok a b : eq_fix a b = true <-> a = b.
Proof.
  unfold eq_fix. rewrite Z.eqb_eq. destruct a, b. cbn. split; [intros <-; reflexivity|intros E; injection E; auto].
Qed.
Lemma eq_list_ok {A} (eq : A -> A -> bool) : (forall x y, eq x y = true <-> x = y) ->
  forall a b, eq_list eq a b = true <-> a = b.
Proof.
  intros H. induction a as [|x a IH]; intros [|y b]; cbn; split; intros E; try discriminate; auto.
  - apply andb_true_iff in E. destruct E as [E1 E2]. apply H in E1. apply IH in E2. congruence.
  - injection E as -> ->. apply andb_true_iff. split; [now apply H|now apply IH].
Qed.
