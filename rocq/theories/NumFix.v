(** * Fixed-point arithmetic, an executable linear solver and a sample run

    Used in examples only: theorems about every [Num] are illustrated by runs
    that the kernel evaluates. *)
From Coq Require Import List ZArith Bool Arith.
Import ListNotations.
From Verif Require Import Num Vec Handlers Material Analysis Truss Equil Solver Run EditFacts.

(** A number is an integer multiple of 2^-64. *)
Record fix_ := Fx { fx : Z }.
Definition fx1 : Z := (2 ^ 64)%Z.
Definition fxdiv (a b : fix_) : fix_ :=
  if (fx b =? 0)%Z then Fx 0 else Fx (Z.quot (fx a * fx1) (fx b)).
#[global] Instance NumFix : Num fix_ := {|
  f0 := Fx 0; f1 := Fx fx1; fnan := Fx 0;
  fadd := fun a b => Fx (fx a + fx b); fsub := fun a b => Fx (fx a - fx b);
  fmul := fun a b => Fx (Z.quot (fx a * fx b) fx1); fdiv := fxdiv;
  fopp := fun a => Fx (- fx a); fabs := fun a => Fx (Z.abs (fx a));
  fsqrt := fun a => Fx (Z.sqrt (fx a * fx1));
  ftrunc := fun a => Fx (Z.quot (fx a) fx1 * fx1);
  fltb := fun a b => Z.ltb (fx a) (fx b); fleb := fun a b => Z.leb (fx a) (fx b);
  feqb := fun a b => Z.eqb (fx a) (fx b); fofZ := fun z => Fx (z * fx1) |}.

Definition argsort_fx (l : list fix_) : list nat := argsort_ins (map fx l).

Section Gauss.
  Context {F : Type} `{NF : Num F}.
  Local Open Scope num_scope.
  (** Gaussian elimination with partial pivoting on augmented rows. *)
  Fixpoint pivot (best : list F) (rest acc : list (list F)) : list F * list (list F) :=
    match rest with
    | [] => (best, acc)
    | r :: rest' =>
        if fabs (hd f0 best) <? fabs (hd f0 r)
        then pivot r rest' (best :: acc) else pivot best rest' (r :: acc)
    end.
  Fixpoint eliminate (k : nat) (rows : list (list F)) : list F :=
    match k, rows with
    | S k', r :: rest =>
        let '(p, others) := pivot r rest [] in
        let d := hd f0 p in
        let sub r := let m := hd f0 r / d in map2 (fun a b => a - m * b) (tl r) (tl p) in
        let xs := eliminate k' (map sub others) in
        let s := fold_left fadd (map2 fmul (tl p) xs) f0 in
        (last p f0 - s) / d :: xs
    | _, _ => []
    end.
  Definition gauss (M : list (list F)) (b : list F) : list F :=
    eliminate (length M) (map2 (fun r x => r ++ [x]) M b).

  (** The fraction a/b. *)
  Definition q (a b : Z) : F := fofZ a / fofZ b.

  (** Two bars from (0,0,0) and (3,8,0) to the free node 2 at (3,4,0), one
      elastic, one plastic; two load steps. *)
  Definition xr_nodes : option (nodeH F) :=
    add_nodes None [(1%Z, V3 f0 f0 f0); (5%Z, V3 (q 3 1) (q 8 1) f0); (2%Z, V3 (q 3 1) (q 4 1) f0)].
  Definition xr_elems : elemH F :=
    ElemH [7; 9]%Z [(1, 2); (2, 5)]%Z [1; 1]%Z [1; 2]%Z
      (Tab false 3 [[q 1 1; f0; f0]; [q 1 1; q 1 10; q 1 50]]) (Tab false 1 [[f1]; [f1]]).
  Definition xr_bounds : option boundH :=
    Some (BoundH [1; 5; 2]%Z (UMat 3 [[0; 0; 0]; [0; 0; 0]; [1; 1; 0]]%Z)).
  Definition xr_forces : option (forceH F) :=
    Some (ForceH [2%Z] 6 [[f0; q (-1) 1; f0; q 1 1; f0; f0]]).
  Definition xr_set (incs nsteps : Z) (stepcontrol : bool) : settings F :=
    Settings (Same incs) stepcontrol (q 4 1) (q 1 100) (q 1 2) (q 8 1) (q 5 4) 8%Z 8%Z 4%Z 8%Z
      (q 1 200) (q 1 20) (Same (0%Z, None)) 0%Z None true false 0%Z nsteps.
  Definition xr_model (incs nsteps : Z) (sc : bool) : model F :=
    Model xr_nodes (Some xr_elems) xr_bounds xr_forces (xr_set incs nsteps sc) None.
End Gauss.

Definition xr_run (incs nsteps : Z) : res (model fix_ * list msg) :=
  m <- build argsort_ins (xr_model incs nsteps true) ;;
  run argsort_fx gauss m 40.
Definition xr_lpfs (r : res (model fix_ * list msg)) : list Z :=
  match r with
  | Ok (m, _) => match m_built m with Some u => map (fun a => (fx (a_lpf a) * 1000000 / fx1)%Z) (u_R u) | None => [] end
  | _ => []
  end.
