(** * Core classes and handlers (src/trusspy/core, src/trusspy/handlers)

    A handler whose arrays are still [None] is the option value [None].
    Labels are Python ints ([Z]).  A handler method returns the new handler or
    the exception it raises. *)
From Coq Require Import List ZArith Bool Arith.
Import ListNotations.
From Verif Require Import Num Vec.

Section Handlers.
  Context {F : Type} `{NF : Num F}.

  (** ** Property tables with NumPy dtype *)

  (** A number in a user-supplied Python list: int or float. *)
  Inductive pynum := PI (z : Z) | PF (x : F).
  Definition pyval (p : pynum) : F := match p with PI z => fofZ z | PF x => x end.
  Definition is_PI (p : pynum) : bool := match p with PI _ => true | PF _ => false end.

  (** dtype of [np.array(row)]: integer iff all entries are ints (an empty list
      gives float64). *)
  Definition row_int (r : list pynum) : bool :=
    match r with [] => false | _ => forallb is_PI r end.

  (** 2-D array: integer dtype flag, number of columns, rows. *)
  Record table := Tab { t_int : bool; t_width : nat; t_rows : list (list F) }.

  (** [np.array([row])] *)
  Definition tab_of_row (r : list pynum) : table :=
    Tab (row_int r) (length r) [map pyval r].

  (** [np.vstack((t, row))]: columns must agree; result is integer iff both are. *)
  Definition tab_vstack (t : table) (r : list pynum) : res table :=
    if length r =? t_width t
    then Ok (Tab (t_int t && row_int r) (t_width t) (t_rows t ++ [map pyval r]))
    else Err ValueError.

  (** Storing a number into an array: an integer array truncates floats. *)
  Definition store (int : bool) (p : pynum) : F :=
    match p with PI z => fofZ z | PF x => if int then ftrunc x else x end.

  (** [t[idx] = [row]]: equal width, or width-1 broadcast, else ValueError. *)
  Definition tab_assign (t : table) (idx : list nat) (r : list pynum) : res table :=
    let st := map (store (t_int t)) r in
    if length r =? t_width t then
      rows <- put (t_rows t) idx st ;; Ok (Tab (t_int t) (t_width t) rows)
    else match st with
         | [x] => rows <- put (t_rows t) idx (repeat x (t_width t)) ;;
                  Ok (Tab (t_int t) (t_width t) rows)
         | _ => Err ValueError
         end.

  Definition tab_delete (t : table) (idx : list nat) : table :=
    Tab (t_int t) (t_width t) (delete_at (t_rows t) idx).

  (** [np.hstack((t, np.zeros((rows, k))))]: becomes a float array. *)
  Definition tab_extend (t : table) (k : nat) : table :=
    Tab false (t_width t + k) (map (fun r => r ++ repeat f0 k) (t_rows t)).

  (** ** Nodes: core/node.py:23-36, handlers/handler_node.py:13-50
      Simplification: every coordinate list has length 3. *)
  Record nodeH := NodeH { n_labels : list Z; n_coords : list (v3 F) }.

  (** handler_node.py:26-36 [add_node] *)
  Definition add_node (h : option nodeH) (label : Z) (coord : v3 F) : option nodeH :=
    match h with
    | None => Some (NodeH [label] [coord])
    | Some h => Some (NodeH (n_labels h ++ [label]) (n_coords h ++ [coord]))
    end.

  (** handler_node.py:38-41 [del_node]; on the [None] handler np.delete raises. *)
  Definition del_node (h : option nodeH) (label : Z) : res (option nodeH) :=
    match h with
    | None => Err ValueError
    | Some h => let idx := positions label (n_labels h) in
                Ok (Some (NodeH (delete_at (n_labels h) idx) (delete_at (n_coords h) idx)))
    end.

  (** handler_node.py:43-45 [add_nodes] *)
  Definition add_nodes (h : option nodeH) (l : list (Z * v3 F)) : option nodeH :=
    fold_left (fun h p => add_node h (fst p) (snd p)) l h.

  (** [np.argsort]: any function returning a permutation that sorts is allowed,
      see [argsort_ok] in SpecBuild.v. *)
  Variable argsort : list Z -> list nat.

  (** handler_node.py:47-50 [fix_nodes] (argsort(None) raises). *)
  Definition fix_nodes (h : option nodeH) : res (option nodeH) :=
    match h with
    | None => Err TypeError
    | Some h =>
        let ix := argsort (n_labels h) in
        ls <- gather (n_labels h) ix ;;
        cs <- gather (n_coords h) ix ;;
        Ok (Some (NodeH ls cs))
    end.

  (** ** Boundaries: core/boundary.py:32-34, handlers/handler_boundary.py *)

  (** [Uvalues]: after the first [add_bound_U] it is the 1-D array of that
      boundary's components ([np.array(B.values)], handler_boundary.py:44),
      afterwards 2-D. *)
  Inductive uvals := UFlat (l : list Z) | UMat (w : nat) (rows : list (list Z)).
  Record boundH := BoundH { b_nodes : list Z; b_vals : uvals }.

  (** [np.vstack((Uvalues, values))] *)
  Definition uv_vstack (u : uvals) (r : list Z) : res uvals :=
    match u with
    | UFlat l => if length l =? length r then Ok (UMat (length r) [l; r]) else Err ValueError
    | UMat w rows => if w =? length r then Ok (UMat w (rows ++ [r])) else Err ValueError
    end.

  (** [np.delete(Uvalues, idx, axis=0)]: on the 1-D array this deletes
      components, an out-of-range index raises. *)
  Definition uv_delete (u : uvals) (idx : list nat) : res uvals :=
    match u with
    | UFlat l => if forallb (fun i => i <? length l) idx
                 then Ok (UFlat (delete_at l idx)) else Err IndexError
    | UMat w rows => if forallb (fun i => i <? length rows) idx
                     then Ok (UMat w (delete_at rows idx)) else Err IndexError
    end.

  (** [Uvalues.take(indices, axis=0)] *)
  Definition uv_take (u : uvals) (ix : list nat) : res uvals :=
    match u with
    | UFlat l => l' <- gather l ix ;; Ok (UFlat l')
    | UMat w rows => r' <- gather rows ix ;; Ok (UMat w r')
    end.

  Definition uv_flatten (u : uvals) : list Z :=
    match u with UFlat l => l | UMat _ rows => concat rows end.

  (** handler_boundary.py:36-47 [add_bound_U] *)
  Definition add_bound_U (h : option boundH) (node : Z) (values : list Z) : res (option boundH) :=
    match h with
    | None => Ok (Some (BoundH [node] (UFlat values)))
    | Some h => u <- uv_vstack (b_vals h) values ;;
                Ok (Some (BoundH (b_nodes h ++ [node]) u))
    end.

  (** handler_boundary.py:49-53 [del_bound_U] *)
  Definition del_bound_U (h : option boundH) (label : Z) : res (option boundH) :=
    match h with
    | None => Err ValueError
    | Some h => let idx := positions label (b_nodes h) in
                u <- uv_delete (b_vals h) idx ;;
                Ok (Some (BoundH (delete_at (b_nodes h) idx) u))
    end.

  (** handler_boundary.py:55-58 [add_bounds_U] *)
  Definition add_bounds_U (h : option boundH) (l : list (Z * list Z)) : res (option boundH) :=
    foldM (fun h p => add_bound_U h (fst p) (snd p)) l h.

  (** [nodelist[np.isin(nodelist, nodes, invert=True)]] *)
  Definition missing (nodelist : list Z) (nodes : list Z) : list Z :=
    filter (fun n => negb (existsb (Z.eqb n) nodes)) nodelist.

  (** handler_boundary.py:60-71 [fix_bounds_U] *)
  Definition fix_bounds_U (h : option boundH) (nodelist : list Z) : res (option boundH) :=
    let have := match h with None => [] | Some h => b_nodes h end in
    h1 <- foldM (fun h n => add_bound_U h n [1; 1; 1]%Z) (missing nodelist have) h ;;
    match h1 with
    | None => Err TypeError
    | Some h1 =>
        let ix := argsort (b_nodes h1) in
        ns <- gather (b_nodes h1) ix ;;
        us <- uv_take (b_vals h1) ix ;;
        Ok (Some (BoundH ns us))
    end.

  (** handler_boundary.py:73-80 [add_bound_T]: [self.Tnodes] is never defined
      (the constructor sets [Telements]), so every call raises. *)
  Definition add_bound_T (element : Z) (value : F) : res unit := Err AttributeError.

  (** ** External forces: core/external_force.py:35-36, handlers/handler_extforce.py *)
  Record forceH := ForceH { e_nodes : list Z; e_width : nat; e_rows : list (list F) }.

  (** handler_extforce.py:26-35 [add_force] *)
  Definition add_force (h : option forceH) (node : Z) (force : list F) : res (option forceH) :=
    match h with
    | None => Ok (Some (ForceH [node] (length force) [force]))
    | Some h => if e_width h =? length force
                then Ok (Some (ForceH (e_nodes h ++ [node]) (e_width h) (e_rows h ++ [force])))
                else Err ValueError
    end.

  (** handler_extforce.py:37-40 [del_force] *)
  Definition del_force (h : option forceH) (label : Z) : res (option forceH) :=
    match h with
    | None => Err ValueError
    | Some h => let idx := positions label (e_nodes h) in
                Ok (Some (ForceH (delete_at (e_nodes h) idx) (e_width h) (delete_at (e_rows h) idx)))
    end.

  (** handler_extforce.py:42-44 [add_forces] *)
  Definition add_forces (h : option forceH) (l : list (Z * list F)) : res (option forceH) :=
    foldM (fun h p => add_force h (fst p) (snd p)) l h.

  (** handler_extforce.py:46-58 [fix_forces]; without any force
      [self.forces.shape] raises. *)
  Definition fix_forces (h : option forceH) (nodelist : list Z) : res (option forceH) :=
    match h with
    | None => Err AttributeError
    | Some h0 =>
        h1 <- foldM (fun h n => add_force h n (repeat f0 (e_width h0)))
                    (missing nodelist (e_nodes h0)) (Some h0) ;;
        match h1 with
        | None => Err AttributeError
        | Some h1 =>
            let ix := argsort (e_nodes h1) in
            ns <- gather (e_nodes h1) ix ;;
            rs <- gather (e_rows h1) ix ;;
            Ok (Some (ForceH ns (e_width h1) rs))
        end
    end.

  (** ** Elements: core/element.py, handlers/handler_element.py
      Simplification: the connectivity is a pair of node labels. *)
  Record element := Elem {
    l_label : Z; l_conn : Z * Z; l_etype : Z; l_mtype : Z;
    l_mat : list pynum; l_geo : list pynum }.

  (** core/element.py:33-89 [Element.__init__]; [None] stands for an argument
      left at its default ([[np.nan]] resp. [None]). *)
  Definition mk_element (label : Z) (conn : Z * Z) (etype mtype : Z)
      (material_properties geometric_properties mprop gprop : option (list pynum)) : res element :=
    match material_properties, mprop with
    | Some _, Some _ => Err TypeError
    | _, _ =>
        match geometric_properties, gprop with
        | Some _, Some _ => Err TypeError
        | _, _ =>
            let pick a b := match b with
                            | Some r => r
                            | None => match a with Some r => r | None => [PF fnan] end
                            end in
            Ok (Elem label conn etype mtype (pick material_properties mprop)
                                            (pick geometric_properties gprop))
        end
    end.

  Record elemH := ElemH {
    el_labels : list Z; el_conns : list (Z * Z);
    el_etype : list Z; el_mtype : list Z;
    el_mat : table; el_geo : table }.

  (** Argument [labels]: the string "all" or a list of labels. *)
  Inductive labarg := All | Labs (l : list Z).
  Definition lab_list (a : labarg) (h : elemH) : list Z :=
    match a with All => el_labels h | Labs l => l end.

  (** handler_element.py:76-100 [add_element] *)
  Definition add_element (h : option elemH) (E : element) : res (option elemH) :=
    match h with
    | None => Ok (Some (ElemH [l_label E] [l_conn E] [l_etype E] [l_mtype E]
                              (tab_of_row (l_mat E)) (tab_of_row (l_geo E))))
    | Some h =>
        mat <- tab_vstack (el_mat h) (l_mat E) ;;
        geo <- tab_vstack (el_geo h) (l_geo E) ;;
        Ok (Some (ElemH (el_labels h ++ [l_label E]) (el_conns h ++ [l_conn E])
                        (el_etype h ++ [l_etype E]) (el_mtype h ++ [l_mtype E]) mat geo))
    end.

  (** handler_element.py:109-112 [add_elements] *)
  Definition add_elements (h : option elemH) (l : list element) : res (option elemH) :=
    foldM add_element l h.

  (** handler_element.py:102-107 [del_element]: [elem_type] and [mat_type] are
      not shortened. *)
  Definition del_element (h : option elemH) (label : Z) : res (option elemH) :=
    match h with
    | None => Err ValueError
    | Some h =>
        let idx := positions label (el_labels h) in
        Ok (Some (ElemH (delete_at (el_labels h) idx) (delete_at (el_conns h) idx)
                        (el_etype h) (el_mtype h)
                        (tab_delete (el_mat h) idx) (tab_delete (el_geo h) idx)))
    end.

  (** handler_element.py:30-50 [assign_material] *)
  Definition assign_material (h : option elemH) (labels : labarg) (mprop : list pynum)
      (mtype : option Z) : res (option elemH) :=
    match h with
    | None => Err AttributeError
    | Some h =>
        let w := t_width (el_mat h) in
        let k := length mprop in
        let mat := if w <? k then tab_extend (el_mat h) (k - w) else el_mat h in
        let mp := if k <? w then mprop ++ repeat (PF f0) (w - k) else mprop in
        h' <- foldM (fun st label =>
                 let idx := positions label (el_labels h) in
                 mat' <- tab_assign (fst st) idx mp ;;
                 match mtype with
                 | None => Ok (mat', snd st)
                 | Some t => mt' <- put (snd st) idx t ;; Ok (mat', mt')
                 end) (lab_list labels h) (mat, el_mtype h) ;;
        Ok (Some (ElemH (el_labels h) (el_conns h) (el_etype h) (snd h') (fst h') (el_geo h)))
    end.

  (** handler_element.py:52-56 [assign_geometry] *)
  Definition assign_geometry (h : option elemH) (labels : labarg) (gprop : list pynum)
      : res (option elemH) :=
    match h with
    | None => match labels with Labs [] => Ok None | _ => Err TypeError end
    | Some h =>
        geo <- foldM (fun t label => tab_assign t (positions label (el_labels h)) gprop)
                     (lab_list labels h) (el_geo h) ;;
        Ok (Some (ElemH (el_labels h) (el_conns h) (el_etype h) (el_mtype h) (el_mat h) geo))
    end.

  (** handler_element.py:58-62 [assign_geometries] *)
  Definition assign_geometries (h : option elemH) (labels : labarg) (gprops : list (list pynum))
      : res (option elemH) :=
    match h with
    | None => match labels, gprops with
              | Labs [], _ | Labs _, [] => Ok None
              | _, _ => Err TypeError
              end
    | Some h =>
        geo <- foldM (fun t p => tab_assign t (positions (fst p) (el_labels h)) (snd p))
                     (combine (lab_list labels h) gprops) (el_geo h) ;;
        Ok (Some (ElemH (el_labels h) (el_conns h) (el_etype h) (el_mtype h) (el_mat h) geo))
    end.

  (** handler_element.py:64-68 [assign_etype] *)
  Definition assign_etype (h : option elemH) (labels : labarg) (t : Z) : res (option elemH) :=
    match h with
    | None => match labels with Labs [] => Ok None | _ => Err TypeError end
    | Some h =>
        et <- foldM (fun a label => put a (positions label (el_labels h)) t)
                    (lab_list labels h) (el_etype h) ;;
        Ok (Some (ElemH (el_labels h) (el_conns h) et (el_mtype h) (el_mat h) (el_geo h)))
    end.

  (** handler_element.py:70-74 [assign_mtype] *)
  Definition assign_mtype (h : option elemH) (labels : labarg) (t : Z) : res (option elemH) :=
    match h with
    | None => match labels with Labs [] => Ok None | _ => Err TypeError end
    | Some h =>
        mt <- foldM (fun a label => put a (positions label (el_labels h)) t)
                    (lab_list labels h) (el_mtype h) ;;
        Ok (Some (ElemH (el_labels h) (el_conns h) (el_etype h) mt (el_mat h) (el_geo h)))
    end.

  (** handler_element.py:114-140: the getters [arr[np.where(labels == label)][0]]. *)
  Definition get_nodes (h : elemH) (label : Z) : res (Z * Z) :=
    gather0 (el_conns h) (positions label (el_labels h)).
  Definition get_material_type (h : elemH) (label : Z) : res Z :=
    gather0 (el_mtype h) (positions label (el_labels h)).
  Definition get_element_type (h : elemH) (label : Z) : res Z :=
    gather0 (el_etype h) (positions label (el_labels h)).
  Definition get_material_properties (h : elemH) (label : Z) : res (list F) :=
    gather0 (t_rows (el_mat h)) (positions label (el_labels h)).
  Definition get_geometric_properties (h : elemH) (label : Z) : res (list F) :=
    gather0 (t_rows (el_geo h)) (positions label (el_labels h)).
End Handlers.

Arguments pynum : clear implicits.
Arguments table : clear implicits.
Arguments nodeH : clear implicits.
Arguments forceH : clear implicits.
Arguments element : clear implicits.
Arguments elemH : clear implicits.
