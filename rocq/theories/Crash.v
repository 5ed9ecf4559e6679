(** * States in between: calls that raise or are interrupted

    The same methods as in Handlers.v and Run.v, statement by statement: an [act]
    returns the states of the model object after each assignment to one of its
    attributes, in order, and how the call ends.  If the call raises, the object
    stays in the last of these states; if it is interrupted (KeyboardInterrupt), in
    any of them.  CrashFacts.v proves that the methods that end normally do what
    Handlers.v and Run.v say.

    Simplifications: an assignment to an attribute is atomic.  The analysis object is
    not followed from the start of [build] to the end of [Analysis.build], nor from
    the start of a step to the end of [pathfollow]: [x_an] is [None] then, and also
    before the first [build].  So these definitions say nothing about [run] called in
    a state with [x_an = None]; [build] does not read the analysis object.  Attributes
    of the model that [build] and [run] only write (nelems, ndim, ndof, nproDOF, times)
    are left out, as is the printed text. *)
From Coq Require Import List ZArith Bool Arith.
Import ListNotations.
From Verif Require Import Num Vec Handlers Material Analysis Truss Equil Solver Run.

(** ** Calls with visible intermediate states *)
Definition act (S A : Type) := S -> list S * res A.

Section Act.
  Context {S : Type}.
  Definition ret {A} (a : A) : act S A := fun _ => ([], Ok a).
  Definition raise {A} (e : exn) : act S A := fun _ => ([], Err e).
  Definition lift {A} (r : res A) : act S A := fun _ => ([], r).
  Definition get : act S S := fun s => ([], Ok s).
  Definition upd (f : S -> S) : act S unit := fun s => ([f s], Ok tt).
  Definition abind {A B} (m : act S A) (f : A -> act S B) : act S B := fun s =>
    match m s with
    | (l, Ok a) => let (l', r) := f a (last l s) in (l ++ l', r)
    | (l, Err e) => (l, Err e)
    | (l, Timeout) => (l, Timeout)
    end.
  Fixpoint each {A} (f : A -> act S unit) (l : list A) : act S unit :=
    match l with [] => ret tt | a :: l => abind (f a) (fun _ => each f l) end.

  (** The state the call leaves behind, and how it ends. *)
  Definition final {A} (m : act S A) (s : S) : S := last (fst (m s)) s.
  Definition outcome {A} (m : act S A) (s : S) : res A := snd (m s).
  (** All states at which it can be interrupted. *)
  Definition visits {A} (m : act S A) (s : S) : list S := s :: fst (m s).
End Act.
Notation "x <~ m ;; k" := (abind m (fun x => k)) (at level 61, m at next level, right associativity).

(** A call on an attribute [g] of the object, written back with [p]. *)
Definition zoom {S T A} (g : S -> T) (p : T -> S -> S) (m : act T A) : act S A := fun s =>
  let (l, r) := m (g s) in (map (fun t => p t s) l, r).

Section Crash.
  Context {F : Type} `{NF : Num F}.
  Notation AN := (analysis F).
  Variable argsortZ : list Z -> list nat.
  Variable argsortF : list F -> list nat.
  Variable solve : list (list F) -> list F -> list F.

  (** ** The object *)
  Record nodeX := NodeX { xn_labels : option (list Z); xn_coords : option (list (v3 F)) }.
  Record boundX := BoundX { xb_nodes : option (list Z); xb_vals : option uvals }.
  Record forceX := ForceX { xf_nodes : option (list Z); xf_rows : option (nat * list (list F)) }.

  Record xmodel := XModel {
    x_nodes : nodeX; x_elems : option (elemH F); x_bounds : boundX; x_forces : forceX;
    x_set : settings F;
    x_nnodes : option nat; x_ndof1 : option nat;
    x_an : option AN;
    x_res : option (list AN * list F)          (* Results.R and Results.step_lpf_end *)
  }.

  (** The states of Run.v. *)
  Definition x_node (h : option (nodeH F)) : nodeX :=
    match h with None => NodeX None None | Some h => NodeX (Some (n_labels h)) (Some (n_coords h)) end.
  Definition x_bound (h : option boundH) : boundX :=
    match h with None => BoundX None None | Some h => BoundX (Some (b_nodes h)) (Some (b_vals h)) end.
  Definition x_force (h : option (forceH F)) : forceX :=
    match h with None => ForceX None None | Some h => ForceX (Some (e_nodes h)) (Some (e_width h, e_rows h)) end.
  Definition x_of (m : model F) : xmodel :=
    XModel (x_node (m_nodes m)) (m_elems m) (x_bound (m_bounds m)) (x_force (m_forces m)) (m_set m)
      (option_map u_nnodes (m_built m)) (option_map u_ndof1 (m_built m))
      (option_map u_an (m_built m)) (option_map (fun u => (u_R u, u_lpf_end u)) (m_built m)).

  (** ** Nodes *)
  Definition set_nl v (h : nodeX) := NodeX (Some v) (xn_coords h).
  Definition set_nc v (h : nodeX) := NodeX (xn_labels h) (Some v).

  (** handler_node.py:26-36.  [np.vstack] of [None] and a row raises ValueError
      (unless the row has one component, which is not modelled; the same holds for
      the support and load tables below). *)
  Definition xadd_node (label : Z) (coord : v3 F) : act nodeX unit :=
    h <~ get ;;
    match xn_labels h with
    | None => _ <~ upd (set_nl [label]) ;; upd (set_nc [coord])
    | Some ls =>
        _ <~ upd (set_nl (ls ++ [label])) ;;
        match xn_coords h with
        | None => raise ValueError
        | Some cs => upd (set_nc (cs ++ [coord]))
        end
    end.

  (** [np.delete(a, idx, axis=0)] with its range check. *)
  Definition del_rows {A} (a : list A) (idx : list nat) : res (list A) :=
    if forallb (fun i => i <? length a) idx then Ok (delete_at a idx) else Err IndexError.

  (** handler_node.py:38-41 *)
  Definition xdel_node (label : Z) : act nodeX unit :=
    h <~ get ;;
    match xn_labels h with
    | None => raise ValueError
    | Some ls =>
        let idx := positions label ls in
        ls' <~ lift (del_rows ls idx) ;; _ <~ upd (set_nl ls') ;;
        match xn_coords h with
        | None => raise ValueError
        | Some cs => cs' <~ lift (del_rows cs idx) ;; upd (set_nc cs')
        end
    end.

  (** handler_node.py:47-50 *)
  Definition xfix_nodes : act nodeX unit :=
    h <~ get ;;
    match xn_labels h with
    | None => raise TypeError
    | Some ls =>
        let ix := argsortZ ls in
        ls' <~ lift (gather ls ix) ;; _ <~ upd (set_nl ls') ;;
        match xn_coords h with
        | None => raise AttributeError
        | Some cs => cs' <~ lift (gather cs ix) ;; upd (set_nc cs')
        end
    end.

  (** ** Supports *)
  Definition set_bn v (h : boundX) := BoundX (Some v) (xb_vals h).
  Definition set_bv v (h : boundX) := BoundX (xb_nodes h) (Some v).

  (** handler_boundary.py:36-47 *)
  Definition xadd_bound_U (node : Z) (values : list Z) : act boundX unit :=
    h <~ get ;;
    match xb_nodes h with
    | None => _ <~ upd (set_bn [node]) ;; upd (set_bv (UFlat values))
    | Some ns =>
        _ <~ upd (set_bn (ns ++ [node])) ;;
        match xb_vals h with
        | None => raise ValueError
        | Some u => u' <~ lift (uv_vstack u values) ;; upd (set_bv u')
        end
    end.

  (** handler_boundary.py:49-53 *)
  Definition xdel_bound_U (label : Z) : act boundX unit :=
    h <~ get ;;
    match xb_nodes h with
    | None => raise ValueError
    | Some ns =>
        let idx := positions label ns in
        ns' <~ lift (del_rows ns idx) ;; _ <~ upd (set_bn ns') ;;
        match xb_vals h with
        | None => raise ValueError
        | Some u => u' <~ lift (uv_delete u idx) ;; upd (set_bv u')
        end
    end.

  (** handler_boundary.py:60-71 *)
  Definition xfix_bounds_U (nodelist : list Z) : act boundX unit :=
    h <~ get ;;
    let have := match xb_nodes h with None => [] | Some ns => ns end in
    _ <~ each (fun n => xadd_bound_U n [1; 1; 1]%Z) (missing nodelist have) ;;
    h <~ get ;;
    match xb_nodes h with
    | None => raise TypeError
    | Some ns =>
        let ix := argsortZ ns in
        ns' <~ lift (gather ns ix) ;; _ <~ upd (set_bn ns') ;;
        match xb_vals h with
        | None => raise AttributeError
        | Some u => u' <~ lift (uv_take u ix) ;; upd (set_bv u')
        end
    end.

  (** ** Loads *)
  Definition set_fn v (h : forceX) := ForceX (Some v) (xf_rows h).
  Definition set_fr v (h : forceX) := ForceX (xf_nodes h) (Some v).

  (** handler_extforce.py:26-35 *)
  Definition xadd_force (node : Z) (force : list F) : act forceX unit :=
    h <~ get ;;
    match xf_nodes h with
    | None => _ <~ upd (set_fn [node]) ;; upd (set_fr (length force, [force]))
    | Some ns =>
        _ <~ upd (set_fn (ns ++ [node])) ;;
        match xf_rows h with
        | None => raise ValueError
        | Some (w, rows) => if w =? length force then upd (set_fr (w, rows ++ [force])) else raise ValueError
        end
    end.

  (** handler_extforce.py:37-40 *)
  Definition xdel_force (label : Z) : act forceX unit :=
    h <~ get ;;
    match xf_nodes h with
    | None => raise ValueError
    | Some ns =>
        let idx := positions label ns in
        ns' <~ lift (del_rows ns idx) ;; _ <~ upd (set_fn ns') ;;
        match xf_rows h with
        | None => raise ValueError
        | Some (w, rows) => rows' <~ lift (del_rows rows idx) ;; upd (set_fr (w, rows'))
        end
    end.

  (** handler_extforce.py:46-58 *)
  Definition xfix_forces (nodelist : list Z) : act forceX unit :=
    h <~ get ;;
    match xf_rows h with
    | None => raise AttributeError
    | Some (w, _) =>
        let have := match xf_nodes h with None => [] | Some ns => ns end in
        _ <~ each (fun n => xadd_force n (repeat f0 w)) (missing nodelist have) ;;
        h <~ get ;;
        match xf_nodes h with
        | None => raise TypeError
        | Some ns =>
            let ix := argsortZ ns in
            ns' <~ lift (gather ns ix) ;; _ <~ upd (set_fn ns') ;;
            match xf_rows h with
            | None => raise AttributeError
            | Some (w, rows) => rows' <~ lift (gather rows ix) ;; upd (set_fr (w, rows'))
            end
        end
    end.

  (** ** Elements: the six arrays may have different lengths here *)

  (** handler_element.py:76-100 [add_element]: labels, connectivity and types are
      appended before the property rows are stacked.  The states between these first
      four assignments, and between the six of the first call, are left out. *)
  Definition xadd_element (E : element F) : act (option (elemH F)) unit :=
    o <~ get ;;
    match o with
    | None => upd (fun _ => Some (ElemH [l_label E] [l_conn E] [l_etype E] [l_mtype E]
                                        (tab_of_row (l_mat E)) (tab_of_row (l_geo E))))
    | Some h =>
        let h1 := ElemH (el_labels h ++ [l_label E]) (el_conns h ++ [l_conn E])
                        (el_etype h ++ [l_etype E]) (el_mtype h ++ [l_mtype E]) (el_mat h) (el_geo h) in
        _ <~ upd (fun _ => Some h1) ;;
        mat <~ lift (tab_vstack (el_mat h) (l_mat E)) ;;
        let h2 := ElemH (el_labels h1) (el_conns h1) (el_etype h1) (el_mtype h1) mat (el_geo h) in
        _ <~ upd (fun _ => Some h2) ;;
        geo <~ lift (tab_vstack (el_geo h) (l_geo E)) ;;
        upd (fun _ => Some (ElemH (el_labels h2) (el_conns h2) (el_etype h2) (el_mtype h2) mat geo))
    end.

  (** handler_element.py:102-107 [del_element] *)
  Definition xdel_element (label : Z) : act (option (elemH F)) unit :=
    o <~ get ;;
    match o with
    | None => raise ValueError
    | Some h =>
        let idx := positions label (el_labels h) in
        let h1 := ElemH (delete_at (el_labels h) idx) (el_conns h) (el_etype h) (el_mtype h) (el_mat h) (el_geo h) in
        _ <~ upd (fun _ => Some h1) ;;
        conns <~ lift (del_rows (el_conns h) idx) ;;
        let h2 := ElemH (el_labels h1) conns (el_etype h) (el_mtype h) (el_mat h) (el_geo h) in
        _ <~ upd (fun _ => Some h2) ;;
        mat <~ lift (del_rows (t_rows (el_mat h)) idx) ;;
        let h3 := ElemH (el_labels h1) conns (el_etype h) (el_mtype h) (Tab (t_int (el_mat h)) (t_width (el_mat h)) mat) (el_geo h) in
        _ <~ upd (fun _ => Some h3) ;;
        geo <~ lift (del_rows (t_rows (el_geo h)) idx) ;;
        upd (fun _ => Some (ElemH (el_labels h1) conns (el_etype h) (el_mtype h) (el_mat h3)
                                  (Tab (t_int (el_geo h)) (t_width (el_geo h)) geo)))
    end.

  (** ** The model object *)
  Definition put_nodes v (s : xmodel) := XModel v (x_elems s) (x_bounds s) (x_forces s) (x_set s) (x_nnodes s) (x_ndof1 s) (x_an s) (x_res s).
  Definition put_elems v (s : xmodel) := XModel (x_nodes s) v (x_bounds s) (x_forces s) (x_set s) (x_nnodes s) (x_ndof1 s) (x_an s) (x_res s).
  Definition put_bounds v (s : xmodel) := XModel (x_nodes s) (x_elems s) v (x_forces s) (x_set s) (x_nnodes s) (x_ndof1 s) (x_an s) (x_res s).
  Definition put_forces v (s : xmodel) := XModel (x_nodes s) (x_elems s) (x_bounds s) v (x_set s) (x_nnodes s) (x_ndof1 s) (x_an s) (x_res s).
  Definition in_nodes {A} : act nodeX A -> act xmodel A := zoom x_nodes put_nodes.
  Definition in_elems {A} : act (option (elemH F)) A -> act xmodel A := zoom x_elems put_elems.
  Definition in_bounds {A} : act boundX A -> act xmodel A := zoom x_bounds put_bounds.
  Definition in_forces {A} : act forceX A -> act xmodel A := zoom x_forces put_forces.
  Definition put_set v (s : xmodel) := XModel (x_nodes s) (x_elems s) (x_bounds s) (x_forces s) v (x_nnodes s) (x_ndof1 s) (x_an s) (x_res s).
  Definition put_nnodes v (s : xmodel) := XModel (x_nodes s) (x_elems s) (x_bounds s) (x_forces s) (x_set s) v (x_ndof1 s) (x_an s) (x_res s).
  Definition put_ndof1 v (s : xmodel) := XModel (x_nodes s) (x_elems s) (x_bounds s) (x_forces s) (x_set s) (x_nnodes s) v (x_an s) (x_res s).
  Definition put_an v (s : xmodel) := XModel (x_nodes s) (x_elems s) (x_bounds s) (x_forces s) (x_set s) (x_nnodes s) (x_ndof1 s) v (x_res s).
  Definition put_res v (s : xmodel) := XModel (x_nodes s) (x_elems s) (x_bounds s) (x_forces s) (x_set s) (x_nnodes s) (x_ndof1 s) (x_an s) v.

  (** [len(x)], [x.attr] of an array attribute that may be [None]. *)
  Definition need {A} (e : exn) (o : option A) : act xmodel A :=
    match o with Some a => ret a | None => raise e end.

  (** model.py:126-199 [build] *)
  Definition xbuild : act xmodel unit :=
    _ <~ upd (put_res (Some ([], []))) ;;
    _ <~ upd (put_an None) ;;
    s <~ get ;;
    ls <~ need TypeError (xn_labels (x_nodes s)) ;;
    let nnodes := length ls in
    _ <~ upd (put_nnodes (Some nnodes)) ;;
    eh <~ need TypeError (x_elems s) ;;
    let nelems := length (el_labels eh) in
    let ndof := 3 * nnodes in
    _ <~ in_nodes xfix_nodes ;;
    s <~ get ;;
    ls <~ need TypeError (xn_labels (x_nodes s)) ;;
    _ <~ in_bounds (xfix_bounds_U ls) ;;
    _ <~ in_forces (xfix_forces ls) ;;
    s <~ get ;;
    bn <~ need TypeError (xb_nodes (x_bounds s)) ;;
    c1 <~ lift (allclose ls bn) ;;
    fn <~ need TypeError (xf_nodes (x_forces s)) ;;
    c2 <~ lift (if (c1 : bool) then allclose ls fn else Ok false) ;;
    if negb c2 then raise OSError
    else
    let nstatev := if existsb (Z.eqb 2) (el_mtype eh) then 2%Z else s_nstatev (x_set s) in
    _ <~ upd (put_set (with_nstatev nstatev (x_set s))) ;;
    bv <~ need AttributeError (xb_vals (x_bounds s)) ;;
    let flags := uv_flatten bv in
    D0 <~ lift (dofs_with 0 flags ndof) ;;
    D1 <~ lift (dofs_with 1 flags ndof) ;;
    _ <~ upd (put_ndof1 (Some (length D1))) ;;
    an <~ lift (analysis_build nnodes nelems D0 D1 nstatev) ;;
    _ <~ upd (put_an (Some an)) ;;
    fr <~ need AttributeError (xf_rows (x_forces s)) ;;
    upd (put_res (Some ([set_lpf f0 (set_fconst (repeat (repeat f0 3) nnodes) (set_forces (snd fr) an))], []))).

  (** model.py:307-410: one step.  [Results.R[-1] = r_a] and [copy_increment] are
      two assignments; [Vred[-1] = 0] and [lpf = 0] are taken as one. *)
  Definition xrun_step (c : ctx F) (st : settings F) (rows : list (list F)) (nsteps fuel step : nat) : act xmodel unit :=
    s <~ get ;;
    an0 <~ need AttributeError (x_an s) ;;
    R <~ need AttributeError (x_res s) ;;
    incs <~ lift (at_step (s_incs st) step) ;;
    xlimit <~ lift (match s_xlimit st with Per [] => Err IndexError | p => at_step p step end) ;;
    _ <~ upd (put_an None) ;;
    an <~ lift (step_setup rows step (Rs an0 (fst R) (snd R) [])) ;;
    pf <~ lift (pathfollow solve argsortF (fun V V0 w a => equilibrium c V V0 w a)
            (fun U a => stiffness c U a)
            (a_Ured an) an (DxVec [s_du st; s_dlpf st]) (s_j0 st) (s_jpre st)
            (pf_config st xlimit incs) fuel) ;;
    _ <~ upd (put_an (Some (ps_an pf))) ;;
    _ <~ each (fun a =>
                _ <~ upd (fun s => put_res (option_map (fun R => (removelast (fst R) ++ [a], snd R)) (x_res s)) s) ;;
                upd (fun s => put_res (option_map (fun R => (fst R ++ [a], snd R)) (x_res s)) s))
              (map snd (tl (ps_res pf))) ;;
    _ <~ upd (fun s => put_res (option_map (fun R => (copy_U_last (fst R), snd R)) (x_res s)) s) ;;
    s <~ get ;;
    R2 <~ need AttributeError (x_res s) ;;
    lpf <~ lift (match rev (fst R2) with [] => Err IndexError | a :: _ => Ok (a_lpf a) end) ;;
    _ <~ upd (put_res (Some (fst R2, snd R2 ++ [lpf]))) ;;
    if Nat.ltb (step + 1) nsteps
    then upd (put_an (Some (set_lpf f0 (set_Vred (zero_last (a_Vred (ps_an pf))) (ps_an pf)))))
    else upd (put_res (Some (removelast (fst R2), snd R2 ++ [lpf]))).

  (** model.py:201-441 [run], without the printed text. *)
  Definition xrun (fuel : nat) : act xmodel unit :=
    s <~ get ;;
    let st := x_set s in
    if (1 <? s_log st)%Z && (match s_j0 st with Some _ => true | None => false end)
    then raise TypeError
    else if (1 <? s_log st)%Z && s_stepcontrol st && (s_reduce st =? f0)%num
    then raise ZeroDivisionError
    else
    an <~ need AttributeError (x_an s) ;;
    nn <~ need AttributeError (x_nnodes s) ;;
    nd <~ need AttributeError (x_ndof1 s) ;;
    R <~ need AttributeError (x_res s) ;;
    ls <~ need AttributeError (xn_labels (x_nodes s)) ;;
    cs <~ need AttributeError (xn_coords (x_nodes s)) ;;
    eh <~ need AttributeError (x_elems s) ;;
    fr <~ need AttributeError (xf_rows (x_forces s)) ;;
    match fst R with
    | [] => raise IndexError
    | r0 :: _ =>
        let c := Ctx ls cs eh nn nd (s_nstatev st) in
        let nsteps := Z.to_nat (s_nsteps st) in
        _ <~ upd (put_an (Some (set_lpf f0 (set_Vred (a_Ured an ++ [f0]) an)))) ;;
        _ <~ upd (put_res (Some (r0 :: fst R, snd R))) ;;
        each (xrun_step c st (snd fr) nsteps fuel) (seq 0 nsteps)
    end.
End Crash.
Arguments nodeX : clear implicits.
Arguments forceX : clear implicits.
Arguments xmodel : clear implicits.
