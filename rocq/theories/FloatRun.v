(** * The model on 64-bit floats: replay of the recorded log of the repository

    Tests, not proofs: [Num] instance on Coq's primitive floats, an LU solver, and
    the comparison of the model's run of tests/test_eNTA_A_model_python.py with
    the load factors printed in docs/examples/eNTA-A/analysis.md. *)
From Coq Require Import List ZArith Bool Arith Floats Uint63.
Import ListNotations.
Set Warnings "-inexact-float".
From Verif Require Import Num Vec Handlers Material Analysis Truss Equil Solver Run.

Definition pf_trunc (x : float) : float :=
  let a := PrimFloat.abs x in
  if PrimFloat.ltb a 4503599627370496%float then
    let y := PrimFloat.sub (PrimFloat.add a 4503599627370496%float) 4503599627370496%float in
    let y := if PrimFloat.ltb a y then PrimFloat.sub y 1%float else y in
    if PrimFloat.ltb x 0%float then PrimFloat.opp y else y
  else x.

Definition pf_ofZ (z : Z) : float :=
  let a := PrimFloat.of_uint63 (Uint63.of_Z (Z.abs z)) in
  if (z <? 0)%Z then PrimFloat.opp a else a.

#[global] Instance NumFloat : Num float := {|
  f0 := 0%float; f1 := 1%float; fnan := PrimFloat.nan;
  fadd := PrimFloat.add; fsub := PrimFloat.sub; fmul := PrimFloat.mul; fdiv := PrimFloat.div;
  fopp := PrimFloat.opp; fabs := PrimFloat.abs; fsqrt := PrimFloat.sqrt; ftrunc := pf_trunc;
  fltb := PrimFloat.ltb; fleb := PrimFloat.leb; feqb := PrimFloat.eqb; fofZ := pf_ofZ |}.

(** Stable insertion argsort. *)
Section ArgSort.
  Context {A : Type} (leb : A -> A -> bool).
  Fixpoint ins (p : A * nat) (l : list (A * nat)) : list (A * nat) :=
    match l with
    | [] => [p]
    | q :: l' => if leb (fst p) (fst q) then p :: l else q :: ins p l'
    end.
  Definition isort_idx (l : list A) : list nat :=
    map snd (fold_right ins [] (combine l (seq 0 (length l)))).
End ArgSort.
Definition argsortF_run : list float -> list nat := isort_idx PrimFloat.leb.
Definition argsortZ_run : list Z -> list nat := isort_idx Z.leb.

(** Gaussian elimination with partial pivoting on augmented rows. *)
Fixpoint pick_pivot (best : list float) (rest : list (list float)) (acc : list (list float))
  : list float * list (list float) :=
  match rest with
  | [] => (best, acc)
  | r :: rest' =>
      if PrimFloat.ltb (PrimFloat.abs (hd 0%float best)) (PrimFloat.abs (hd 0%float r))
      then pick_pivot r rest' (best :: acc) else pick_pivot best rest' (r :: acc)
  end.
Fixpoint lu_solve (k : nat) (rows : list (list float)) : list float :=
  match k, rows with
  | S k', r :: rest =>
      let '(p, others) := pick_pivot r rest [] in
      let d := hd 0%float p in
      let sub r := let m := PrimFloat.div (hd 0%float r) d in
                   map2 (fun a b => PrimFloat.sub a (PrimFloat.mul m b)) (tl r) (tl p) in
      let xs := lu_solve k' (map sub others) in
      let rhs := last p 0%float in
      let s := fold_left PrimFloat.add (map2 PrimFloat.mul (tl p) xs) 0%float in
      PrimFloat.div (PrimFloat.sub rhs s) d :: xs
  | _, _ => []
  end.
Definition solve_run (M : list (list float)) (b : list float) : list float :=
  lu_solve (length M) (map2 (fun r x => r ++ [x]) M b).

(** handler_settings.py:12-47 with the changes of test_eNTA_A_model_python.py:44-57 *)
Definition set_nta (incs : Z) : settings float :=
  Settings (Same incs) true 4%float 1e-6%float 0.5%float 8%float 1.25%float 8 8 4 8
           0.005%float 0.05%float (Same (0%Z, None)) 2 None true false 0 1.

(** tests/test_eNTA_A_model_python.py:12-42 *)
Definition nta_elems : res (option (elemH float)) :=
  es <- foldM (fun acc (p : Z * (Z * Z) * pynum float) =>
                 let '(l, c, a) := p in
                 e <- mk_element l c 1 1 None None None (Some [a]) ;; Ok (acc ++ [e]))
        [(1, (1, 4), PF 0.75%float); (2, (2, 4), PI 1); (3, (3, 4), PF 0.5%float);
         (4, (3, 5), PF 0.75%float); (5, (2, 5), PI 1); (6, (4, 5), PI 1)]%Z [] ;;
  h <- add_elements None es ;;
  h <- assign_etype h All 1 ;;
  h <- assign_mtype h All 1 ;;
  assign_material h All [PF 1%float] None.

Definition nta_model (incs : Z) : res (model float) :=
  eh <- nta_elems ;;
  bh <- add_bounds_U None [(1, [0; 0; 0]); (2, [0; 0; 0]); (3, [0; 0; 0]); (5, [1; 0; 1])]%Z ;;
  fh <- add_forces None [(4%Z, [1; 1; -1]%float); (5%Z, [-2; 0; -2]%float)] ;;
  Ok (Model (add_nodes None [(1%Z, V3 2.5 0 0); (2%Z, V3 (-1.25) 1.25 0); (3%Z, V3 1 2 0);
                             (4%Z, V3 (-0.5) 1.5 1.5); (5%Z, V3 (-2.5) 4.5 2.5)]%float)
            eh bh fh (set_nta incs) None).

Definition nta_run (incs : Z) : res (model float * list msg) :=
  m <- nta_model incs ;;
  b <- build argsortZ_run m ;;
  run argsortF_run solve_run b 20.

Definition nta_lpfs (incs : Z) : list float :=
  match nta_run incs with
  | Ok (m, _) => match m_built m with Some u => map a_lpf (tl (u_R u)) | None => [] end
  | _ => []
  end.

(** docs/examples/eNTA-A/analysis.md, the lines "final LPF". *)
Definition nta_log : list float := [
  0.0003378; 0.0007661; 0.001277; 0.001873; 0.002554; 0.003308; 0.004102; 0.00466;
  0.00509; 0.005399; 0.005587; 0.005657; 0.005609; 0.005444; 0.005165; 0.004776;
  0.004282; 0.003692; 0.003018; 0.002279; 0.001502; 0.0007261; 1.997e-05; (-0.0004997);
  (-0.0006199); 4.273e-05; 0.002071; 0.004758; 0.006282; 0.005208; (-0.002605); (-0.007209);
  (-0.007957); (-0.007684); (-0.00704); (-0.006232); (-0.005353); (-0.004449); (-0.003552); (-0.00268);
  (-0.00185); (-0.001071); (-0.0003526); 0.0002988; 0.0008773; 0.001377; 0.001792; 0.002117;
  0.002344; 0.002465; 0.002471; 0.00235; 0.002089; 0.001672; 0.001077; 0.0002772;
  (-0.0007688); (-0.00189); (-0.003089); (-0.004362); (-0.00572); (-0.007193); (-0.007388); (-0.007587);
  (-0.007789); (-0.007997); (-0.008106); (-0.008151); (-0.008081); (-0.007823); (-0.007273); (-0.006554);
  (-0.005706); (-0.004722); (-0.003607); (-0.002392); (-0.001156); (-0.0003768); 7.467e-05; 0.0002458;
  0.0001765; (-9.908e-05); (-0.0005509); (-0.001152); (-0.001878); (-0.002707); (-0.003621); (-0.004604);
  (-0.005644); (-0.006734); (-0.007874); (-0.009071); (-0.01034); (-0.01173); (-0.01332); (-0.01528);
  (-0.01818); (-0.01868); (-0.01925); (-0.01984); (-0.02045); (-0.0211); (-0.02198); (-0.02319);
  (-0.02491); (-0.02735); (-0.03087); (-0.03548); (-0.04119); (-0.0477); (-0.05445); (-0.06058);
  (-0.06394); (-0.06545); (-0.0651); (-0.06283); (-0.05858); (-0.05233); (-0.04418); (-0.03434);
  (-0.02316); (-0.01115); 0.001009; 0.01244; 0.02217; 0.0293; 0.03318; 0.03358;
  0.03075; 0.0253; 0.01789; 0.008933; (-0.0002586); (-0.006843); (-0.01215); (-0.01663);
  (-0.02046); (-0.02373); (-0.0265); (-0.02882); (-0.03071); (-0.03221); (-0.03334); (-0.03411);
  (-0.03452); (-0.03456); (-0.03433); (-0.03391); (-0.03334); (-0.03264); (-0.03183); (-0.03092);
  (-0.02992); (-0.02884); (-0.02768); (-0.02646); (-0.02517); (-0.02382); (-0.0224); (-0.02091);
  (-0.01933); (-0.01762); (-0.01572)]%float.

(** Logged numbers have four significant digits. *)
Definition agrees (x logged : float) : bool :=
  PrimFloat.leb (PrimFloat.abs (PrimFloat.sub x logged))
                (PrimFloat.mul 0.0006%float (PrimFloat.abs logged)).


(** All 163 recorded increments of the log are reproduced ... *)
Example nta_replay :
  length nta_log = 163 /\ length (nta_lpfs 163) = 163 /\
  forallb (fun p => agrees (fst p) (snd p)) (combine (nta_lpfs 163) nta_log) = true.
Proof. vm_compute. repeat split. Qed.

(** ... with the nine "recycling increment" lines of the log and no ERROR line. *)
Example nta_messages :
  match nta_run 163 with
  | Ok (_, out) => filter (fun m => match m with MIncr => false | _ => true end) out
                   = repeat MRecycle 9
  | _ => False
  end.
Proof. vm_compute. reflexivity. Qed.

(** Active DOF of the log: [9 10 11 12 14]. *)
Example nta_dofs :
  match m <- nta_model 163 ;; build argsortZ_run m with
  | Ok m => match m_built m with Some u => a_DOF1 (u_an u) = [9; 10; 11; 12; 14] | None => False end
  | _ => False
  end.
Proof. vm_compute. reflexivity. Qed.
