(** * Model.build and Model.run (src/trusspy/model.py), result handler and settings

    Logging output, timing and the logfile are not modelled here (see Text.v for
    the printed lines and Logfile.v for the logfile).  States between statements and after an exception: Crash.v. *)
From Coq Require Import List ZArith Bool Arith.
Import ListNotations.
From Verif Require Import Num Vec Handlers Material Analysis Truss Equil Solver.

Section Run.
  Context {F : Type} `{NF : Num F}.
  Local Open Scope num_scope.
  Variable argsortZ : list Z -> list nat.
  Variable argsortF : list F -> list nat.
  Variable solve : list (list F) -> list F -> list F.

  (** A per-step setting: one value or a tuple with one value per step
      (model.py:309-316). *)
  Inductive perstep (A : Type) := Same (a : A) | Per (l : list A).
  Arguments Same {A} a.
  Arguments Per {A} l.

  (** handlers/handler_settings.py:12-47.  [s_ftol] and [s_xtol] are numbers of
      digits; the unused attribute [lpf] is left out; [ndim] is 3. *)
  Record settings := Settings {
    s_incs : perstep Z;
    s_stepcontrol : bool;
    s_maxfac : F; s_minfac : F; s_increase : F; s_reduce : F;
    s_dxtol : F;
    s_ftol : Z; s_xtol : Z;
    s_cycl : Z; s_nfev : Z;
    s_dlpf : F; s_du : F;
    s_xlimit : perstep (Z * option F);
    s_log : Z;
    s_j0 : option Z; s_jpre : bool; s_jfixed : bool;
    s_nstatev : Z;
    s_nsteps : Z
  }.

  (** What [build] adds to the model: nnodes, ndof1, Analysis, Results. *)
  Record built := Built {
    u_nnodes : nat;
    u_ndof1 : nat;
    u_an : analysis F;
    u_R : list (analysis F);
    u_lpf_end : list F
  }.

  (** class Model, model.py:119-124 *)
  Record model := Model {
    m_nodes : option (nodeH F);
    m_elems : option (elemH F);
    m_bounds : option boundH;
    m_forces : option (forceH F);
    m_set : settings;
    m_built : option built
  }.

  Definition with_nstatev (n : Z) (s : settings) : settings :=
    Settings (s_incs s) (s_stepcontrol s) (s_maxfac s) (s_minfac s) (s_increase s) (s_reduce s)
             (s_dxtol s) (s_ftol s) (s_xtol s) (s_cycl s) (s_nfev s) (s_dlpf s) (s_du s)
             (s_xlimit s) (s_log s) (s_j0 s) (s_jpre s) (s_jfixed s) n (s_nsteps s).

  (** [np.allclose(a, b)] on integer arrays with the default tolerances:
      |a-b| <= 1e-8 + 1e-5*|b|, evaluated without rounding. *)
  Definition close1 (a b : Z) : bool :=
    (100000000 * Z.abs (a - b) <=? 1 + 1000 * Z.abs b)%Z.
  Definition allclose (a b : list Z) : res bool :=
    l <- bcast2 close1 a b ;; Ok (forallb (fun x => x) l).

  (** [arange(ndof)[np.where(flags == v)]], model.py:162-164 *)
  Definition dofs_with (v : Z) (flags : list Z) (ndof : nat) : res (list nat) :=
    gather (seq 0 ndof) (positions v flags).

  (** model.py:126-199 [build] with handler_result.py:21-36 [add_increment]. *)
  Definition build (m : model) : res model :=
    match m_nodes m, m_elems m with
    | Some nh0, Some eh =>
        let nnodes := length (n_labels nh0) in
        let nelems := length (el_labels eh) in
        let ndof := (3 * nnodes)%nat in
        on <- fix_nodes argsortZ (Some nh0) ;;
        match on with
        | None => Err TypeError
        | Some nh =>
        ob <- fix_bounds_U argsortZ (m_bounds m) (n_labels nh) ;;
        oe <- fix_forces argsortZ (m_forces m) (n_labels nh) ;;
        match ob, oe with
        | Some bh, Some fh =>
            c1 <- allclose (n_labels nh) (b_nodes bh) ;;
            c2 <- (if (c1 : bool) then allclose (n_labels nh) (e_nodes fh) else Ok false) ;;
            if negb c2 then Err OSError
            else
            let nstatev := if existsb (Z.eqb 2) (el_mtype eh) then 2%Z else s_nstatev (m_set m) in
            let flags := uv_flatten (b_vals bh) in
            D0 <- dofs_with 0 flags ndof ;;
            D1 <- dofs_with 1 flags ndof ;;
            an <- analysis_build nnodes nelems D0 D1 nstatev ;;
            let r0 := set_lpf f0 (set_fconst (repeat (repeat f0 3) nnodes)
                                             (set_forces (e_rows fh) an)) in
            Ok (Model on (m_elems m) ob oe (with_nstatev nstatev (m_set m))
                      (Some (Built nnodes (length D1) an [r0] [])))
        | _, _ => Err TypeError
        end
        end
    | _, _ => Err TypeError                              (* len(None) *)
    end.

  (** Columns [3*s .. 3*(s+1)] of the force table. *)
  Definition block (s : nat) (rows : list (list F)) : list (list F) :=
    map (fun r => firstn 3 (skipn (3 * s) r)) rows.

  (** [f0_const += lpf * block], model.py:334-338 *)
  Definition add_scaled (acc : list (list F)) (lpf : F) (blk : list (list F))
      : res (list (list F)) :=
    if forallb (fun p => Nat.eqb (length (fst p)) (length (snd p))) (combine acc blk)
    then Ok (map2 (fun a b => map2 (fun x y => x + lpf * y) a b) acc blk)
    else Err ValueError.

  (** model.py:331-338 *)
  Definition const_forces (rows : list (list F)) (lpf_end : list F) (step : nat)
      : res (list (list F)) :=
    foldM (fun acc s =>
             match nth_error lpf_end s with
             | None => Err IndexError
             | Some l => add_scaled acc l (block s rows)
             end)
          (seq 0 step) (map (map (fun _ => f0)) (block step rows)).

  Definition at_step {A} (p : perstep A) (step : nat) : res A :=
    match p with
    | Same a => Ok a
    | Per l => match nth_error l step with Some a => Ok a | None => Err IndexError end
    end.

  (** model.py:393-394: [R[-1] = r_a] then append a copy (handler_result.py:38-40) *)
  Definition write_result (R : list (analysis F)) (a : analysis F) : list (analysis F) :=
    removelast R ++ [a; a].

  (** [self.Analysis.Vred[-1] = 0.0] *)
  Definition zero_last (v : list F) : list F :=
    match v with [] => [] | _ => removelast v ++ [f0] end.

  (** [R[-1].U0 = np.copy(R[-1].U)] *)
  Definition copy_U_last (R : list (analysis F)) : list (analysis F) :=
    match rev R with
    | [] => []
    | a :: _ => removelast R ++ [set_U0 (a_U a) a]
    end.

  (** Arguments passed to pathfollow, model.py:353-375 *)
  Definition pf_config (s : settings) (xlimit : Z * option F) (incs : Z) : pfcfg F :=
    PfCfg (s_jfixed s) (Some xlimit) incs (s_nfev s) (s_cycl s)
          (pow10neg (s_ftol s)) (pow10neg (s_xtol s)) (s_stepcontrol s)
          (s_maxfac s) (s_minfac s) (s_reduce s) (s_increase s) (s_dxtol s).

  Record runst := Rs { r_an : analysis F; r_R : list (analysis F); r_lpf_end : list F;
                       r_out : list msg }.

  (** model.py:329-351: the analysis object handed to pathfollow in a step. *)
  Definition step_setup (rows : list (list F)) (step : nat) (s : runst) : res (analysis F) :=
    fconst <- const_forces rows (r_lpf_end s) step ;;
    let blk := block step rows in
    f0red <- gather (concat blk) (a_DOF1 (r_an s)) ;;
    Ok (set_step (1 + Z.of_nat step)%Z
         (set_f0red f0red (set_forces blk (set_fconst fconst (r_an s))))).

  (** model.py:307-410: one step. *)
  Definition run_step (c : ctx F) (st : settings) (rows : list (list F)) (nsteps : nat)
      (fuel : nat) (s : runst) (step : nat) : res runst :=
    incs <- at_step (s_incs st) step ;;
    xlimit <- (match s_xlimit st with
               | Per [] => Err IndexError
               | p => at_step p step
               end) ;;
    an <- step_setup rows step s ;;
    pf <- pathfollow solve argsortF (fun V V0 w a => equilibrium c V V0 w a)
            (fun U a => stiffness c U a)
            (a_Ured an) an (DxVec [s_du st; s_dlpf st]) (s_j0 st) (s_jpre st)
            (pf_config st xlimit incs) fuel ;;
    let R1 := fold_left write_result (map snd (tl (ps_res pf))) (r_R s) in
    let R2 := copy_U_last R1 in
    lpf <- (match rev R2 with [] => Err IndexError | a :: _ => Ok (a_lpf a) end) ;;
    let lpf_end := r_lpf_end s ++ [lpf] in
    let an' := ps_an pf in
    if Nat.ltb (step + 1) nsteps
    then Ok (Rs (set_lpf f0 (set_Vred (zero_last (a_Vred an')) an')) R2 lpf_end
                (r_out s ++ ps_out pf))
    else Ok (Rs an' (removelast R2) lpf_end (r_out s ++ ps_out pf)).

  (** model.py:201-441 [run]; also returns the printed messages.  With log > 1,
      line 241 evaluates [j0 + "|"] and line 286 [1 / reduce]. *)
  Definition run (m : model) (fuel : nat) : res (model * list msg) :=
    let st := m_set m in
    if (1 <? s_log st)%Z && (match s_j0 st with Some _ => true | None => false end)
    then Err TypeError
    else if (1 <? s_log st)%Z && s_stepcontrol st && (s_reduce st =? f0)
    then Err ZeroDivisionError
    else
    match m_built m, m_nodes m, m_elems m, m_forces m with
    | Some u, Some nh, Some eh, Some fh =>
        match u_R u with
        | [] => Err IndexError
        | r0 :: _ =>
            let c := Ctx (n_labels nh) (n_coords nh) eh (u_nnodes u) (u_ndof1 u) (s_nstatev st) in
            let an := set_lpf f0 (set_Vred (a_Ured (u_an u) ++ [f0]) (u_an u)) in
            let nsteps := Z.to_nat (s_nsteps st) in
            s <- foldM (run_step c st (e_rows fh) nsteps fuel)
                       (seq 0 nsteps) (Rs an (r0 :: u_R u) (u_lpf_end u) []) ;;
            Ok (Model (m_nodes m) (m_elems m) (m_bounds m) (m_forces m) st
                  (Some (Built (u_nnodes u) (u_ndof1 u) (r_an s) (r_R s) (r_lpf_end s))),
                r_out s)
        end
    | _, _, _, _ => Err AttributeError
    end.
End Run.
Arguments perstep : clear implicits.
Arguments Same {A} a.
Arguments Per {A} l.
Arguments settings : clear implicits.
Arguments model : clear implicits.
Arguments built : clear implicits.
Arguments runst : clear implicits.
