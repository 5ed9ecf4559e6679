(** * Vocabulary for calls that raise or are interrupted

    [final], [outcome] and [visits] (Crash.v) are the state a call leaves, how it
    ends, and the states it goes through; [x_of m] is the model object [m]. *)
From Coq Require Import List ZArith Bool Arith.
Import ListNotations.
From Verif Require Import Num Vec Handlers Material Analysis Truss Equil Solver Run SpecBuild Crash.

Section SpecCrash.
  Context {F : Type} `{NF : Num F}.

  (** ** Defining a model *)
  Inductive call :=
  | AddNode (label : Z) (coord : v3 F)
  | AddBound (node : Z) (values : list Z)
  | AddForce (node : Z) (force : list F)
  | AddElement (E : element F).

  (** The call, with all its intermediate states. *)
  Definition xcall (c : call) : act (xmodel F) unit :=
    match c with
    | AddNode l x => in_nodes (xadd_node l x)
    | AddBound n v => in_bounds (xadd_bound_U n v)
    | AddForce n f => in_forces (xadd_force n f)
    | AddElement E => in_elems (xadd_element E)
    end.

  (** The same call as one step (Handlers.v). *)
  Definition does (m : model F) (c : call) : res (model F) :=
    let mk n e b f := Model n e b f (m_set m) (m_built m) in
    match c with
    | AddNode l x => Ok (mk (add_node (m_nodes m) l x) (m_elems m) (m_bounds m) (m_forces m))
    | AddBound n v => b <- add_bound_U (m_bounds m) n v ;; Ok (mk (m_nodes m) (m_elems m) b (m_forces m))
    | AddForce n f => h <- add_force (m_forces m) n f ;; Ok (mk (m_nodes m) (m_elems m) (m_bounds m) h)
    | AddElement E => h <- add_element (m_elems m) E ;; Ok (mk (m_nodes m) h (m_bounds m) (m_forces m))
    end.

  (** A new model, before any call. *)
  Definition fresh (st : settings F) : model F := Model None None None None st None.

  (** The user tries these calls one after the other, going on whatever happens.
      [true]: the call returned.  [false]: it raised, or was interrupted at any of
      its intermediate states. *)
  Inductive tried : list (call * bool) -> xmodel F -> xmodel F -> Prop :=
  | tried_nil s : tried [] s s
  | tried_done att s t c : tried att s t -> outcome (xcall c) t = Ok tt ->
      tried (att ++ [(c, true)]) s (final (xcall c) t)
  | tried_stop att s t c t' : tried att s t -> In t' (visits (xcall c) t) ->
      tried (att ++ [(c, false)]) s t'.

  (** [cs] is a choice of the tried calls, in order, with all those that returned. *)
  Inductive took : list (call * bool) -> list call -> Prop :=
  | took_nil : took [] []
  | took_keep att cs c b : took att cs -> took (att ++ [(c, b)]) (cs ++ [c])
  | took_drop att cs c : took att cs -> took (att ++ [(c, false)]) cs.

  (** Support calls that returned. *)
  Definition supports_given (att : list (call * bool)) : nat :=
    length (filter (fun p => match p with (AddBound _ _, true) => true | _ => false end) att).

  (** ** Tables *)
  (** Nothing the user defined differs; analysis and results may. *)
  Definition same_input (s t : xmodel F) : Prop :=
    x_nodes s = x_nodes t /\ x_elems s = x_elems t /\ x_bounds s = x_bounds t /\ x_forces s = x_forces t /\ x_set s = x_set t.

  (** Every node row in the table is a row of [ns]; every support or load row is a
      row of [bs] / [fs], or the default row of a node that has none there. *)
  Definition intact (ns : list (Z * v3 F)) (bs : list (Z * list Z)) (fs : list (Z * list F)) (s : xmodel F) : Prop :=
    (exists ns', x_nodes s = NodeX (Some (map fst ns')) (Some (map snd ns')) /\ incl ns' ns) /\
    (exists h bs', x_bounds s = x_bound h /\ bounds_are h bs' /\
       forall p, In p bs' -> In p bs \/ (~ In (fst p) (map fst bs) /\ snd p = [1; 1; 1]%Z)) /\
    (exists h fs', x_forces s = x_force h /\ forces_are h fs' /\
       forall p, In p fs' -> In p fs \/ (~ In (fst p) (map fst fs) /\ Forall (fun x => x = f0) (snd p))).

  (** Some table has more labels than rows. *)
  Definition label_left (s : xmodel F) : Prop :=
    match xn_labels (x_nodes s), xn_coords (x_nodes s) with
    | Some ls, Some cs => length cs < length ls | Some _, None => True | None, _ => False end \/
    match xb_nodes (x_bounds s), xb_vals (x_bounds s) with
    | Some ns, Some (UMat _ rows) => length rows < length ns | Some ns, Some (UFlat _) => 1 < length ns
    | Some _, None => True | None, _ => False end \/
    match xf_nodes (x_forces s), xf_rows (x_forces s) with
    | Some ns, Some (_, rows) => length rows < length ns | Some _, None => True | None, _ => False end.

  (** The labels of some table are already in increasing order, as they are in [m1];
      its rows are still in the order given, followed by the default rows. *)
  Definition half_sorted (ns : list (Z * v3 F)) (bs : list (Z * list Z)) (fs : list (Z * list F))
      (m1 : model F) (s : xmodel F) : Prop :=
    (exists h, m_nodes m1 = Some h /\ x_nodes s = NodeX (Some (n_labels h)) (Some (map snd ns))) \/
    (exists h w, m_bounds m1 = Some h /\ x_bounds s = BoundX (Some (b_nodes h))
       (Some (UMat w (map snd bs ++ repeat [1; 1; 1]%Z (length ns - length bs))))) \/
    (exists h w, m_forces m1 = Some h /\ x_forces s = ForceX (Some (e_nodes h))
       (Some (w, map snd fs ++ repeat (repeat f0 w) (length ns - length fs)))).

  (** ** Runs *)
  (** The same model, set to [k] load steps. *)
  Definition with_nsteps (k : Z) (m : model F) : model F :=
    let st := m_set m in
    Model (m_nodes m) (m_elems m) (m_bounds m) (m_forces m)
      (Settings (s_incs st) (s_stepcontrol st) (s_maxfac st) (s_minfac st) (s_increase st) (s_reduce st)
         (s_dxtol st) (s_ftol st) (s_xtol st) (s_cycl st) (s_nfev st) (s_dlpf st) (s_du st)
         (s_xlimit st) (s_log st) (s_j0 st) (s_jpre st) (s_jfixed st) (s_nstatev st) k)
      (m_built m).

  (** [mk] is [m] after the first [k] steps of its run. *)
  Definition completed argsortF solve (fuel k : nat) (m mk : model F) : Prop :=
    k = 0 /\ mk = m \/
    0 < k /\ exists out, run argsortF solve (with_nsteps (Z.of_nat k) m) fuel = Ok (mk, out).
End SpecCrash.
Arguments call : clear implicits.
