(** * Model.equilibrium and Model.stiffness (src/trusspy/model.py:443-572)

    States between statements and after an exception: Crash.v. *)
From Coq Require Import List ZArith Bool Arith.
Import ListNotations.
From Verif Require Import Num Vec Handlers Material Analysis Truss.

Section Equil.
  Context {F : Type} `{NF : Num F}.
  Local Open Scope num_scope.

  (** The parts of [self] that equilibrium and stiffness read:
      Nodes.labels, Nodes.coords, Elements, nnodes, ndof1, Settings.nstatev. *)
  Record ctx := Ctx {
    c_labels : list Z;
    c_coords : list (v3 F);
    c_elems : elemH F;
    c_nnodes : nat;
    c_ndof1 : nat;
    c_nstatev : Z
  }.

  (** [arr[np.where(self.Nodes.labels == node)][0]] *)
  Definition node_row {A} (c : ctx) (arr : list A) (node : Z) : res A :=
    gather0 arr (positions node (c_labels c)).

  (** model.py:538-541: the local variable [umat] keeps its old value (or stays
      unbound) for other material types. *)
  Definition select_umat (prev : option umat_id) (mat_type : Z) : option umat_id :=
    if (mat_type =? 1)%Z then Some UmatEl
    else if (mat_type =? 2)%Z then Some UmatPl
    else prev.

  (** model.py:504-562: one pass of the loop over elements. *)
  Definition elem_step (c : ctx) (st : stage) (Ured : list F) (lpf : F) (statev_write : bool)
      (s : analysis F * option umat_id) (e : Z) : res (analysis F * option umat_id) :=
    let an := fst s in
    nodes <- get_nodes (c_elems c) e ;;
    let '(NA, NE) := nodes in
    mat_prop <- get_material_properties (c_elems c) e ;;
    geo_prop <- get_geometric_properties (c_elems c) e ;;
    XA <- node_row c (c_coords c) NA ;;
    XE <- node_row c (c_coords c) NE ;;
    UA <- node_row c (a_U an) NA ;;
    UE <- node_row c (a_U an) NE ;;
    U0A <- node_row c (a_U0 an) NA ;;
    U0E <- node_row c (a_U0 an) NE ;;
    state_v <- (if (0 <? c_nstatev c)%Z
                then match a_state an with
                     | Some sv => Ok (Some sv)
                     | None => Err AttributeError      (* None.copy() *)
                     end
                else Ok None) ;;
    rA <- node_row c (a_r an) NA ;;
    rE <- node_row c (a_r an) NE ;;
    mat_type <- get_material_type (c_elems c) e ;;
    match select_umat (snd s) mat_type with
    | None => Err UnboundLocalError
    | Some u =>
        ' (an1, sv') <- truss e NA NE XA XE UA UE U0A U0E rA rE (c_labels c)
                           (el_labels (c_elems c)) st state_v mat_prop geo_prop u an ;;
        let an2 := if statev_write && (0 <? c_nstatev c)%Z
                   then set_Vred (Ured ++ [lpf]) (set_lpf lpf (set_state sv' an1))
                   else an1 in
        Ok (an2, Some u)
    end.

  (** model.py:472-501, the part before the element loop: returns the prepared
      analysis, the displacement part of the argument and the load factor. *)
  Definition equil_prepare (c : ctx) (st : stage) (V V0 : list F) (an : analysis F)
      : res (analysis F * list F * F) :=
    let ext := Nat.ltb (c_ndof1 c) (length V) in
    let lpf := if ext then last V f0 else a_lpf an in
    let Ured := if ext then firstn (c_ndof1 c) V else V in
    let U0red := if ext then firstn (c_ndof1 c) V0 else V0 in
    let an1 := match st with
               | StG => set_r (map (fun _ => vzero) (a_r an)) an
               | StK => set_K (map (map (fun _ => mzero)) (a_K an)) an
               end in
    U <- scatter (a_U an1) (a_DOF1 an1) Ured ;;
    U0 <- scatter (a_U0 an1) (a_DOF1 an1) U0red ;;
    Ok (set_U0 U0 (set_U U an1), Ured, lpf).

  Definition elem_loop (c : ctx) (st : stage) (Ured : list F) (lpf : F) (w : bool)
      (an : analysis F) : res (analysis F) :=
    s <- foldM (elem_step c st Ured lpf w) (el_labels (c_elems c)) (an, None) ;;
    Ok (fst s).

  (** model.py:472-572 [equilibrium] with stage="G": returns g[DOF1]. *)
  Definition equilibrium (c : ctx) (V V0 : list F) (w : bool) (an : analysis F)
      : res (analysis F * list F) :=
    ' (an1, Ured, lpf) <- equil_prepare c StG V V0 an ;;
    an2 <- elem_loop c StG Ured lpf w an1 ;;
    s1 <- bcast2 fadd (map fopp (vflat (a_r an2))) (concat (a_fconst an2)) ;;
    g <- bcast2 fadd s1 (map (fmul lpf) (concat (a_forces an2))) ;;
    gred <- gather g (a_DOF1 an2) ;;
    Ok (set_g g an2, gred).

  (** model.py:457-465: K[a,b] (3x3 blocks) --> (3n x 3n) matrix, row major. *)
  Definition flat_K (K : list (list (m3 F))) : list (list F) :=
    flat_map (fun row => [ flat_map (fun b => vlist (vx b)) row;
                           flat_map (fun b => vlist (vy b)) row;
                           flat_map (fun b => vlist (vz b)) row ]) K.

  (** [m[idx][:, idx]] *)
  Definition select2 (m : list (list F)) (idx : list nat) : res (list (list F)) :=
    rows <- gather m idx ;;
    foldM (fun acc row => r <- gather row idx ;; Ok (acc ++ [r])) rows [].

  (** model.py:443-470 [stiffness] *)
  Definition stiffness (c : ctx) (Ured : list F) (an : analysis F)
      : res (analysis F * list (list F)) :=
    ' (an1, U, lpf) <- equil_prepare c StK Ured Ured an ;;
    an2 <- elem_loop c StK U lpf false an1 ;;
    Kred <- select2 (flat_K (a_K an2)) (a_DOF1 an2) ;;
    Ok (set_Kred Kred an2, Kred).
End Equil.
Arguments ctx : clear implicits.
