(** * The printed text of build and run

    Text-carrying versions of the functions of Solver.v and Run.v: they do the same
    and also emit the lines they print, in order.  An exception does not take back
    what was printed before, so the text is kept beside the outcome.  Lines carry the
    printed values before formatting; fixed wording is a constructor each.  The
    measured times are left out of the lines that show them. *)
From Coq Require Import List ZArith Bool Arith.
Import ListNotations.
From Verif Require Import Num Vec Handlers Material Analysis Truss Equil Solver Run.

(** Rows of the parameter tables, model.py:209-292 *)
Inductive param (F : Type) :=
| PIncs (v : perstep Z) | PCycl (v : Z) | PNfev (v : Z) | PDu (v : F) | PDlpf (v : F)
| PJ0 | PJfixed (v : bool) | PDxtol (v : F) | PXtol (v : Z) | PFtol (v : Z)
| PStepcontrol (v : bool) | PMinfac (v : F) | PMaxfac (v : F) | PReduce (v : F) | PIncrease (v : F).

(** One call of [print] each. *)
Inductive line (F : Type) :=
(* model.py *)
| LPagebreak | LSpace | LBlank
| LSummary | LDim (ndim : Z) | LNodes (n : nat) | LElems (n : nat)
| LDof (n : nat) | LDof1 (n : nat) | LDof0 (n : nat) | LActive (d : list nat) | LFixed (d : list nat)
| LRun | LParams | LHead | LRule | LParam (p : param F) | LAdaptive
| LStep (k : Z) | LHelp (i : nat) | LFormula
| LConstHead | LConst (f : list (list F)) | LStartHead | LStart (v : list F)
| LCreate (k : Z) | LWrite (i n : nat) (lpf : F) | LEndStep (k : Z)
| LDuration | LMeasured | LTime (i : nat)
(* tpsolver.py *)
| LIncrement (i : Z) | LTableHead | LTableRule
| LPre (z n j : Z) (fnorm : F) (i1 : nat) (v1 : F)
| LTotalHead
| LTotal (z n j : Z) (fnorm : F) (i1 : nat) (v1 : F) (i2 : nat) (v2 : F) (i3 : nat) (v3 : F)
| LReduceForced | LReduceInactive | LReduce (fac : F)
| LIncreaseInactive (b : Z) | LIncrease (fac : F)
| LError1 | LError2 | LHint | LRecycle | LFinal (lpf : F) | LExit
(* zerosearch.py *)
| LIter (n : Z) (fnorm : F).
Arguments PIncs {F}. Arguments PCycl {F}. Arguments PNfev {F}. Arguments PDu {F}. Arguments PDlpf {F}.
Arguments PJ0 {F}. Arguments PJfixed {F}. Arguments PDxtol {F}. Arguments PXtol {F}. Arguments PFtol {F}.
Arguments PStepcontrol {F}. Arguments PMinfac {F}. Arguments PMaxfac {F}. Arguments PReduce {F}. Arguments PIncrease {F}.
Arguments LPagebreak {F}. Arguments LSpace {F}. Arguments LBlank {F}. Arguments LSummary {F}. Arguments LDim {F}.
Arguments LNodes {F}. Arguments LElems {F}. Arguments LDof {F}. Arguments LDof1 {F}. Arguments LDof0 {F}.
Arguments LActive {F}. Arguments LFixed {F}. Arguments LRun {F}. Arguments LParams {F}. Arguments LHead {F}.
Arguments LRule {F}. Arguments LParam {F}. Arguments LAdaptive {F}. Arguments LStep {F}. Arguments LHelp {F}.
Arguments LFormula {F}. Arguments LConstHead {F}. Arguments LConst {F}. Arguments LStartHead {F}. Arguments LStart {F}.
Arguments LCreate {F}. Arguments LWrite {F}. Arguments LEndStep {F}. Arguments LDuration {F}. Arguments LMeasured {F}.
Arguments LTime {F}. Arguments LIncrement {F}. Arguments LTableHead {F}. Arguments LTableRule {F}. Arguments LPre {F}.
Arguments LTotalHead {F}. Arguments LTotal {F}. Arguments LReduceForced {F}. Arguments LReduceInactive {F}.
Arguments LReduce {F}. Arguments LIncreaseInactive {F}. Arguments LIncrease {F}. Arguments LError1 {F}.
Arguments LError2 {F}. Arguments LHint {F}. Arguments LRecycle {F}. Arguments LFinal {F}. Arguments LExit {F}.
Arguments LIter {F}.

(** Printed text and outcome of a call. *)
Definition told (L A : Type) : Type := list L * res A.
Definition quiet {L A} (r : res A) : told L A := ([], r).
Definition say {L} (ls : list L) : told L unit := (ls, Ok tt).
Definition tbind {L A B} (m : told L A) (k : A -> told L B) : told L B :=
  match snd m with
  | Ok a => let r := k a in (fst m ++ fst r, snd r)
  | Err e => (fst m, Err e)
  | Timeout => (fst m, Timeout)
  end.
Notation "x <~ r ;; k" := (tbind r (fun x => k))
  (at level 61, r at next level, right associativity).
Notation "' p <~ r ;; k" := (tbind r (fun p => k))
  (at level 61, p pattern, r at next level, right associativity).

Section Text.
  Context {F : Type} `{NF : Num F}.
  Local Open Scope num_scope.
  Variable argsortZ : list Z -> list nat.
  Variable argsortF : list F -> list nat.
  Variable solve : list (list F) -> list F -> list F.
  Notation AN := (analysis F).
  Notation L := (line F).
  Notation "m ~> A" := (told m A) (at level 20).

  (** [if verbose > k: print(...)] *)
  Definition above (verbose k : Z) (ls : list L) : list L := if (k <? verbose)%Z then ls else [].

  (** zerosearch.py:90-112 *)
  Fixpoint newton_loop_t {S : Type} (verbose : Z) (fn : list F -> S -> res (S * list F))
      (dfn : list F -> S -> res (S * list (list F))) (ftol xtol : F) (k : nat) (n : Z) (x : list F)
      (prev : option (F * F)) (s : S) : told L (S * newton_out F) :=
    match k with
    | O => match prev with
           | None => quiet (Err UnboundLocalError)
           | Some (fnm, xnm) => quiet (Ok (s, NOut x false n fnm xnm))
           end
    | Datatypes.S k' =>
        ' (s1, Km) <~ quiet (dfn x s) ;;
        ' (s2, fv) <~ quiet (fn x s1) ;;
        let dx := solve Km (map fopp fv) in
        x' <~ quiet (bcast2 fadd x dx) ;;
        ' (s3, fv') <~ quiet (fn x' s2) ;;
        let f_norm := fnorm fv' in
        let x_norm := fnorm dx in
        _ <~ say (above verbose 0 [LIter (n + 1)%Z f_norm]) ;;
        if (f_norm <? ftol) && (x_norm <? xtol)
        then quiet (Ok (s3, NOut x' true (n + 1)%Z f_norm x_norm))
        else newton_loop_t verbose fn dfn ftol xtol k' (n + 1)%Z x' (Some (f_norm, x_norm)) s3
    end.
  Definition newton_t {S : Type} (verbose : Z) (fn : list F -> S -> res (S * list F)) dfn
      (x : list F) (nfev : Z) (ftol xtol : F) (s : S) : told L (S * newton_out F) :=
    newton_loop_t verbose fn dfn ftol xtol (Z.to_nat nfev) 0%Z x None s.

  (** tpsolver.py:133-195, called with verbose=2 *)
  Definition dxmax_control_t (cfg : pfcfg F) (dxmax dxmax0 : list F) (j j0 z : Z)
      (nr_success : bool) (b n nfev : Z) : told L (list F * Z * Z * bool) :=
    d <~ quiet (py_get dxmax 0) ;;
    d0 <~ quiet (py_get dxmax0 0) ;;
    if negb nr_success then
      if d0 * cf_minfac cfg <? d then
        let final := (z + 1 =? cf_cycl cfg)%Z in
        let z' := if final then 0%Z else z in
        _ <~ say [if final then LReduceForced else LReduceInactive] ;;
        if (j0 =? j)%Z || final then
          if cf_reduce cfg =? f0 then quiet (Err ZeroDivisionError)
          else
            _ <~ say [LReduce (f1 / cf_reduce cfg)] ;;
            quiet (Ok (map (fun x => x / cf_reduce cfg) dxmax, z', 0%Z, true))
        else quiet (Ok (dxmax, z', b, false))
      else quiet (Ok (dxmax, z, b, false))
    else
      if d <? d0 * cf_maxfac cfg then
        if (j0 =? j)%Z then
          if (0 <? z)%Z then quiet (Ok (dxmax, z, b, false))
          else if (b <=? 3)%Z then
            _ <~ say [LIncreaseInactive b] ;; quiet (Ok (dxmax, z, b, false))
          else
            let fac := f1 + fofZ (nfev - n) / fofZ nfev * cf_increase cfg in
            _ <~ say [LIncrease fac] ;;
            quiet (Ok (map (fun x => x * fac) dxmax, z, b, true))
        else quiet (Ok (dxmax, z, b, false))
      else
        if (j =? j0)%Z then quiet (Ok (map (fun x => x * cf_maxfac cfg) dxmax0, z, b, true))
        else quiet (Ok (dxmax, z, b, false)).

  (** tpsolver.py:449-453: 1-based index and signed value of the [k]-th largest
      entry.  [argsort] returns positions of the array, so both lookups have a value;
      the model puts 0 elsewhere. *)
  Definition ranked (Dx dxmax : list F) (k : nat) : nat * F :=
    match bcast2 fdiv Dx dxmax with
    | Ok q =>
        let i := nth k (rev (argsortF (map fabs q))) 0%nat in
        let v := nth i q f0 in (Datatypes.S i, fabs v * fsign v)
    | _ => (0%nat, f0)
    end.

  (** tpsolver.py:365-406; the iteration itself is called with verbose=0 *)
  Definition predict_t (verbose : Z) (g : gfun F) (dg : kfun F) (cfg : pfcfg F) (x dxmax : list F) (j : Z) (an : AN)
      : told L (pre_out F) :=
    xj <~ quiet (py_get x (Z.abs j - 1)) ;;
    dj <~ quiet (py_get dxmax (Z.abs j - 1)) ;;
    let xmax := xj + dj * fofZ (Z.sgn j) in
    ' (an1, o) <~ newton_t 0 (f_ext g x j xmax false) (dfdx dg j) x 1 (cf_ftol cfg) (cf_xtol cfg) an ;;
    Dx <~ quiet (bcast2 fsub (no_x o) x) ;;
    ' (i1, v1) <~ quiet (biggest argsortF Dx dxmax) ;;
    j' <~ quiet (signed_index i1 v1) ;;
    _ <~ say (above verbose 1 [LPre 1 (no_n o - 1) j (no_fnorm o) i1 v1]) ;;
    let ok := if cf_dxtol cfg <? fabs v1 then false else no_success o in
    quiet (Ok (PreOut an1 j' ok (no_n o) Dx v1)).

  (** tpsolver.py:409-542 *)
  Fixpoint recycle_t (verbose : Z) (g : gfun F) (dg : kfun F) (cfg : pfcfg F) (x0 dxmax0 : list F)
      (pre : option (list F * F)) (fuel : nat) (s : rcst F) : told L (rcst F * list F * bool) :=
    match fuel with
    | O => quiet Timeout
    | Datatypes.S fuel' =>
        _ <~ say (above verbose 1 [LBlank; LTableHead; LTableRule]) ;;
        let j0 := rc_j s in
        let dxmax := rc_dxmax s in
        xj <~ quiet (py_get x0 (Z.abs j0 - 1)) ;;
        dj <~ quiet (py_get dxmax (Z.abs j0 - 1)) ;;
        let xmax := xj + dj * fofZ (Z.sgn j0) in
        xs <~ quiet (match pre with
              | Some (Dx_pre, v) =>
                  if (rc_z s =? 0)%Z
                  then bcast2 fadd x0 (map (fun d => d / fabs v) Dx_pre)
                  else Ok x0
              | None => Ok x0
              end) ;;
        let nfev := (cf_nfev cfg - rc_npre s)%Z in
        ' (an1, o) <~ newton_t verbose (f_ext g x0 j0 xmax false) (dfdx dg j0) xs nfev
                             (cf_ftol cfg) (cf_xtol cfg) (rc_an s) ;;
        let x := no_x o in
        let nr_success := no_success o in
        Dx <~ quiet (bcast2 fsub x x0) ;;
        ' (i1, v1) <~ quiet (biggest argsortF Dx dxmax) ;;
        if Nat.ltb (length x) 2 then quiet (Err IndexError)
        else
        let (i2, v2) := ranked Dx dxmax 1 in
        let (i3, v3) := if Nat.ltb 2 (length x) then ranked Dx dxmax 2 else (0%nat, fnan) in
        _ <~ say (above verbose 1 [LTotalHead; LTotal (rc_z s + 1) (no_n o + rc_npre s) j0 (no_fnorm o) i1 v1 i2 v2 i3 v3]) ;;
        j <~ quiet (if cf_jfixed cfg then Ok j0 else signed_index i1 v1) ;;
        let an2 := set_dVmax dxmax an1 in
        q <~ quiet (bcast2 fdiv Dx dxmax) ;;
        valid <~ quiet (if cf_jfixed cfg
                  then qj <- py_get q (Z.abs j - 1) ;; Ok (fabs qj <=? cf_dxtol cfg)
                  else Ok (forallb (fun v => fabs v <=? cf_dxtol cfg) q)) ;;
        ' (dxmax', z', b', changed) <~
           (if cf_stepcontrol cfg
            then dxmax_control_t cfg dxmax dxmax0 j j0 (rc_z s) nr_success (rc_b s) (no_n o) nfev
            else quiet (Ok (dxmax, rc_z s, rc_b s, false))) ;;
        if valid && nr_success then
          ' (an3, _) <~ quiet (f_ext g x0 j0 xmax true x an2) ;;
          quiet (Ok (Rc an3 z' j dxmax' (b' + 1)%Z (rc_npre s) (rc_out s), x, false))
        else if (z' + 1 =? cf_cycl cfg)%Z then
          _ <~ say [LBlank; LError1; LHint] ;;
          quiet (Ok (Rc an2 z' j dxmax' b' (rc_npre s) (rc_out s ++ [MError1]), x, true))
        else if (j0 =? j)%Z && negb nr_success && negb changed then
          _ <~ say [LBlank; LError2; LHint] ;;
          quiet (Ok (Rc an2 z' j dxmax' b' (rc_npre s) (rc_out s ++ [MError2]), x, true))
        else
          _ <~ say [LBlank; LRecycle] ;;
          recycle_t verbose g dg cfg x0 dxmax0 pre fuel'
            (Rc an2 (z' + 1)%Z (if nr_success then j else j0) dxmax' b' 0%Z
                (rc_out s ++ [MRecycle]))
    end.

  (** tpsolver.py:337-556, increment number [i] *)
  Definition increment_t (verbose : Z) (g : gfun F) (dg : kfun F) (cfg : pfcfg F) (dxmax0 : list F) (fuel : nat)
      (i : Z) (s : pfst F) : told L (pfst F * bool) :=
    let x0 := ps_x s in
    let out := ps_out s ++ [MIncr] in
    let finish (an : AN) (x : list F) (j : Z) (jpre : bool) (dxmax : list F) (b : Z)
               (out : list msg) : pfst F :=
      let an' := set_lpf (last x f0) (set_Ured (removelast x) (set_Vred x an)) in
      Pf an' x j jpre dxmax b (ps_res s ++ [(x, an')]) out in
    _ <~ say (above verbose 0 [LBlank; LIncrement i] ++ above verbose 1 [LTableHead; LTableRule]) ;;
    ' (s', stop) <~
      (if ps_jpre s && negb (cf_jfixed cfg) then
         p <~ predict_t verbose g dg cfg x0 (ps_dxmax s) (ps_j s) (ps_an s) ;;
         let jpre := negb (pr_j p =? 0)%Z in
         if pr_success p then
           quiet (Ok (finish (pr_an p) x0 (pr_j p) jpre (ps_dxmax s) (ps_b s) out, false))
         else
           ' (r, x, stop) <~ recycle_t verbose g dg cfg x0 dxmax0
                (if jpre then Some (pr_Dx p, pr_v p) else None) fuel
                (Rc (pr_an p) 0%Z (pr_j p) (ps_dxmax s) (ps_b s) (pr_n p) out) ;;
           quiet (Ok (finish (rc_an r) x (rc_j r) jpre (rc_dxmax r) (rc_b r) (rc_out r), stop))
       else
         ' (r, x, stop) <~ recycle_t verbose g dg cfg x0 dxmax0 None fuel
              (Rc (ps_an s) 0%Z (ps_j s) (ps_dxmax s) (ps_b s) 0%Z out) ;;
         quiet (Ok (finish (rc_an r) x (rc_j r) (ps_jpre s) (rc_dxmax r) (rc_b r) (rc_out r), stop))) ;;
    _ <~ say (above verbose 0 [LBlank; LFinal (last (ps_x s') f0)]) ;;
    quiet (Ok (s', stop)).

  (** tpsolver.py:337-565; [i] is the number of the next increment *)
  Fixpoint increments_t (verbose : Z) (g : gfun F) (dg : kfun F) (cfg : pfcfg F) (dxmax0 : list F) (fuel : nat)
      (k : nat) (i : Z) (s : pfst F) : told L (pfst F) :=
    match k with
    | O => quiet (Ok s)
    | Datatypes.S k' =>
        ' (s1, stop) <~ increment_t verbose g dg cfg dxmax0 fuel i s ;;
        if (stop : bool) then quiet (Ok s1)
        else
          lim <~ quiet (beyond_limit cfg (ps_x s1)) ;;
          if (lim : bool)
          then
            _ <~ say [LExit] ;;
            quiet (Ok (Pf (ps_an s1) (ps_x s1) (ps_j s1) (ps_jpre s1) (ps_dxmax s1) (ps_b s1)
                      (ps_res s1) (ps_out s1 ++ [MExit1])))
          else increments_t verbose g dg cfg dxmax0 fuel k' (i + 1)%Z s1
    end.

  (** tpsolver.py:198-567 *)
  Definition pathfollow_t (verbose : Z) (g : gfun F) (dg : kfun F) (Ured : list F) (an : AN) (d : dxarg F)
      (j : option Z) (j_pre : bool) (cfg : pfcfg F) (fuel : nat) : told L (pfst F) :=
    let x := Ured ++ [f0] in
    let dxmax := expand_dxmax (length x) d in
    let start j := Pf an x j j_pre dxmax 4%Z [(x, an)] [] in
    if negb (cf_jfixed cfg) then
      increments_t verbose g dg cfg dxmax fuel (Z.to_nat (cf_incs cfg)) 1 (start (Z.of_nat (length x)))
    else match j with
         | Some j => increments_t verbose g dg cfg dxmax fuel (Z.to_nat (cf_incs cfg)) 1 (start j)
         | None => if (cf_incs cfg <=? 0)%Z then quiet (Ok (start 0%Z))
                   else (above verbose 0 [LBlank; LIncrement 1] ++ above verbose 1 [LTableHead; LTableRule]
                          ++ above verbose 1 [LBlank; LTableHead; LTableRule], Err TypeError)
         end.

  (** model.py:126-199 *)
  Definition build_t (m : model F) : told L (model F) :=
    match m_nodes m, m_elems m with
    | Some nh0, Some eh =>
        let nnodes := length (n_labels nh0) in
        let nelems := length (el_labels eh) in
        let ndof := (3 * nnodes)%nat in
        on <~ quiet (fix_nodes argsortZ (Some nh0)) ;;
        match on with
        | None => quiet (Err TypeError)
        | Some nh =>
        ob <~ quiet (fix_bounds_U argsortZ (m_bounds m) (n_labels nh)) ;;
        oe <~ quiet (fix_forces argsortZ (m_forces m) (n_labels nh)) ;;
        match ob, oe with
        | Some bh, Some fh =>
            c1 <~ quiet (allclose (n_labels nh) (b_nodes bh)) ;;
            c2 <~ quiet (if (c1 : bool) then allclose (n_labels nh) (e_nodes fh) else Ok false) ;;
            if negb c2 then quiet (Err OSError)
            else
            let nstatev := if existsb (Z.eqb 2) (el_mtype eh) then 2%Z else s_nstatev (m_set m) in
            let flags := uv_flatten (b_vals bh) in
            D0 <~ quiet (dofs_with 0 flags ndof) ;;
            D1 <~ quiet (dofs_with 1 flags ndof) ;;
            _ <~ say (above (s_log (m_set m)) 1
                   [LBlank; LSummary; LDim 3; LNodes nnodes; LElems nelems; LSpace;
                    LDof ndof; LDof1 (length D1); LDof0 (length D0); LSpace; LActive D1; LFixed D0]) ;;
            an <~ quiet (analysis_build nnodes nelems D0 D1 nstatev) ;;
            let r0 := set_lpf f0 (set_fconst (repeat (repeat f0 3) nnodes)
                                             (set_forces (e_rows fh) an)) in
            quiet (Ok (Model on (m_elems m) ob oe (with_nstatev nstatev (m_set m))
                      (Some (Built nnodes (length D1) an [r0] []))))
        | _, _ => quiet (Err TypeError)
        end
        end
    | _, _ => quiet (Err TypeError)
    end.

  (** model.py:388-394: line number [i] of [n] for each result *)
  Fixpoint writes (i n : nat) (lpfs : list F) : list L :=
    match lpfs with [] => [] | l :: ls => LWrite i n l :: writes (Datatypes.S i) n ls end.

  (** model.py:307-413: one step *)
  Definition run_step_t (c : ctx F) (st : settings F) (rows : list (list F)) (nsteps : nat)
      (fuel : nat) (s : runst F) (step : nat) : told L (runst F) :=
    let log := s_log st in
    incs <~ quiet (at_step (s_incs st) step) ;;
    xlimit <~ quiet (match s_xlimit st with
               | Per [] => Err IndexError
               | p => at_step p step
               end) ;;
    _ <~ say (above log 0 [LStep (1 + Z.of_nat step)]
              ++ above log 1 [LHelp 1; LHelp 2; LHelp 3; LHelp 4; LHelp 5; LFormula]) ;;
    fconst <~ quiet (const_forces rows (r_lpf_end s) step) ;;
    _ <~ say (if Nat.eqb step 0 then [] else [LConstHead; LConst fconst; LStartHead; LStart (a_Vred (r_an s))]) ;;
    let blk := block step rows in
    f0red <~ quiet (gather (concat blk) (a_DOF1 (r_an s))) ;;
    let an := set_step (1 + Z.of_nat step)%Z
                (set_f0red f0red (set_forces blk (set_fconst fconst (r_an s)))) in
    pf <~ pathfollow_t log (fun V V0 w a => equilibrium c V V0 w a)
            (fun U a => stiffness c U a)
            (a_Ured an) an (DxVec [s_du st; s_dlpf st]) (s_j0 st) (s_jpre st)
            (pf_config st xlimit incs) fuel ;;
    let new := map snd (tl (ps_res pf)) in
    _ <~ say (above log 1 ([LPagebreak; LSpace; LCreate (1 + Z.of_nat step)]
                            ++ writes 1 (length new) (map a_lpf new))) ;;
    let R1 := fold_left write_result new (r_R s) in
    let R2 := copy_U_last R1 in
    lpf <~ quiet (match rev R2 with [] => Err IndexError | a :: _ => Ok (a_lpf a) end) ;;
    let lpf_end := r_lpf_end s ++ [lpf] in
    let an' := ps_an pf in
    let s' := if Nat.ltb (step + 1) nsteps
              then Rs (set_lpf f0 (set_Vred (zero_last (a_Vred an')) an')) R2 lpf_end
                      (r_out s ++ ps_out pf)
              else Rs an' (removelast R2) lpf_end (r_out s ++ ps_out pf) in
    _ <~ say (above log 0 [LEndStep (1 + Z.of_nat step)]) ;;
    quiet (Ok s').

  Fixpoint foldT {A B} (f : A -> B -> told L A) (l : list B) (a : A) : told L A :=
    match l with [] => quiet (Ok a) | b :: l' => a' <~ f a b ;; foldT f l' a' end.

  (** model.py:205-296: the parameter tables *)
  Definition parameters (st : settings F) : told L unit :=
    if (1 <? s_log st)%Z then
      _ <~ say ([LPagebreak; LSpace; LRun; LParams; LHead; LRule]
                ++ map LParam [PIncs (s_incs st); PCycl (s_cycl st); PNfev (s_nfev st); PDu (s_du st); PDlpf (s_dlpf st)]) ;;
      match s_j0 st with
      | Some _ => quiet (Err TypeError)                        (* line 241: int + str *)
      | None =>
          _ <~ say (map LParam [PJ0; PJfixed (s_jfixed st); PDxtol (s_dxtol st); PXtol (s_xtol st); PFtol (s_ftol st)]) ;;
          _ <~ (if s_stepcontrol st then
                  _ <~ say ([LAdaptive; LHead; LRule]
                            ++ map LParam [PStepcontrol (s_stepcontrol st); PMinfac (s_minfac st); PMaxfac (s_maxfac st)]) ;;
                  if s_reduce st =? f0 then quiet (Err ZeroDivisionError)
                  else say (map LParam [PReduce (f1 / s_reduce st); PIncrease (s_increase st)])
                else say []) ;;
          say [LBlank]
      end
    else say [].

  (** model.py:201-441 *)
  Definition run_t (m : model F) (fuel : nat) : told L (model F * list msg) :=
    let st := m_set m in
    _ <~ parameters st ;;
    match m_built m, m_nodes m, m_elems m, m_forces m with
    | Some u, Some nh, Some eh, Some fh =>
        match u_R u with
        | [] => quiet (Err IndexError)
        | r0 :: _ =>
            let c := Ctx (n_labels nh) (n_coords nh) eh (u_nnodes u) (u_ndof1 u) (s_nstatev st) in
            let an := set_lpf f0 (set_Vred (a_Ured (u_an u) ++ [f0]) (u_an u)) in
            let nsteps := Z.to_nat (s_nsteps st) in
            s <~ foldT (run_step_t c st (e_rows fh) nsteps fuel)
                       (seq 0 nsteps) (Rs an (r0 :: u_R u) (u_lpf_end u) []) ;;
            _ <~ say (above (s_log st) 1
                   [LPagebreak; LSpace; LDuration; LMeasured; LTime 1; LTime 2; LTime 3; LTime 4]) ;;
            quiet (Ok (Model (m_nodes m) (m_elems m) (m_bounds m) (m_forces m) st
                  (Some (Built (u_nnodes u) (u_ndof1 u) (r_an s) (r_R s) (r_lpf_end s))),
                r_out s))
        end
    | _, _, _, _ => quiet (Err AttributeError)
    end.
End Text.
