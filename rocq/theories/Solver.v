(** * Newton solver and path following (src/trusspy/solvers)

    The linear solver [scipy.sparse.linalg.spsolve] is an arbitrary function
    [solve] and [np.argsort] on floats an arbitrary function [argsortF]; both
    are parameters of this file.  The callbacks [g], [dgdx] are arbitrary
    functions on the analysis object. *)
From Coq Require Import List ZArith Bool Arith.
Import ListNotations.
From Verif Require Import Num Vec Analysis.

(** ** zerosearch.py *)
Section Newton.
  Context {F : Type} `{NF : Num F}.
  Local Open Scope num_scope.
  Variable solve : list (list F) -> list F -> list F.
  (** [S] is the mutable object the callbacks work on. *)
  Context {S : Type}.
  Variable fn : list F -> S -> res (S * list F).
  Variable dfn : list F -> S -> res (S * list (list F)).

  Record newton_out := NOut {
    no_x : list F; no_success : bool; no_n : Z; no_fnorm : F; no_xnorm : F }.

  (** zerosearch.py:91-110, iterations left [k], [n] made so far, [prev] the
      values of (f_norm, x_norm) when at least one was made. *)
  Fixpoint newton_loop (ftol xtol : F) (k : nat) (n : Z) (x : list F) (prev : option (F * F)) (s : S)
      : res (S * newton_out) :=
    match k with
    | O => match prev with
           | None => Err UnboundLocalError              (* line 112: n is unbound *)
           | Some (fnm, xnm) => Ok (s, NOut x false n fnm xnm)
           end
    | Datatypes.S k' =>
        ' (s1, Km) <- dfn x s ;;
        ' (s2, fv) <- fn x s1 ;;
        let dx := solve Km (map fopp fv) in
        x' <- bcast2 fadd x dx ;;
        ' (s3, fv') <- fn x' s2 ;;
        let f_norm := fnorm fv' in
        let x_norm := fnorm dx in
        if (f_norm <? ftol) && (x_norm <? xtol)
        then Ok (s3, NOut x' true (n + 1)%Z f_norm x_norm)
        else newton_loop ftol xtol k' (n + 1)%Z x' (Some (f_norm, x_norm)) s3
    end.

  (** zerosearch.py:13-112 [newton] *)
  Definition newton (x : list F) (nfev : Z) (ftol xtol : F) (s : S) : res (S * newton_out) :=
    newton_loop ftol xtol (Z.to_nat nfev) 0%Z x None s.
End Newton.
Arguments newton_out : clear implicits.

(** ** tpsolver.py *)
Section Pathfollow.
  Context {F : Type} `{NF : Num F}.
  Local Open Scope num_scope.
  Variable solve : list (list F) -> list F -> list F.
  Variable argsortF : list F -> list nat.

  Notation AN := (analysis F).
  (** Callback [equilibrium(Vred, V0red, analysis, statev_write)]. *)
  Definition gfun := list F -> list F -> bool -> AN -> res (AN * list F).
  (** Callback [stiffness(Ured, analysis)]. *)
  Definition kfun := list F -> AN -> res (AN * list (list F)).

  (** tpsolver.py:15-23 [f] *)
  Definition f_ext (g : gfun) (V0 : list F) (j : Z) (Vmax : F) (w : bool) (V : list F) (an : AN)
      : res (AN * list F) :=
    ' (an1, gr) <- g V V0 w (set_j j an) ;;
    vj <- py_get V (Z.abs j - 1) ;;
    Ok (an1, map fopp gr ++ [vj - Vmax]).

  (** tpsolver.py:34-35 the control row [qc] *)
  Definition ctrl_row (n : nat) (j : Z) : res (list F) :=
    p <- py_pos n (Z.abs j - 1) ;;
    Ok (set_nth p f1 (repeat f0 n)).

  (** [np.hstack((M, col))] with a column vector *)
  Definition hstack_col (M : list (list F)) (col : list F) : res (list (list F)) :=
    if Nat.eqb (length M) (length col)
    then Ok (map2 (fun row x => row ++ [x]) M col) else Err ValueError.

  (** tpsolver.py:26-49 [dfdx] *)
  Definition dfdx (dg : kfun) (j : Z) (V : list F) (an : AN) : res (AN * list (list F)) :=
    let an0 := set_j j an in
    qc <- ctrl_row (length V) j ;;
    ' (an1, K) <- dg (removelast V) an0 ;;
    Kf <- hstack_col K (map fopp (a_f0red an1)) ;;
    if forallb (fun row => Nat.eqb (length row) (length qc)) Kf
    then let Km := Kf ++ [qc] in Ok (set_Kmod Km an1, Km)
    else Err ValueError.

  (** Parameters of [pathfollow] (tpsolver.py:198-220) that stay fixed.
      [xlimit] has an optional bound, [None] being np.inf.  [reduce] is a
      Python number. *)
  Record pfcfg := PfCfg {
    cf_jfixed : bool;
    cf_xlimit : option (Z * option F);
    cf_incs : Z; cf_nfev : Z; cf_cycl : Z;
    cf_ftol : F; cf_xtol : F;
    cf_stepcontrol : bool;
    cf_maxfac : F; cf_minfac : F; cf_reduce : F; cf_increase : F;
    cf_dxtol : F
  }.

  (** tpsolver.py:52-195 [dxmax_control].  Line 155 evaluates [1 / reduce] for
      printing ([verbose=2] is passed by the caller, line 505), which raises for
      reduce = 0.  Returns (dxmax, z, b, dx_changed). *)
  Definition dxmax_control (cfg : pfcfg) (dxmax dxmax0 : list F) (j j0 z : Z)
      (nr_success : bool) (b n nfev : Z) : res (list F * Z * Z * bool) :=
    d <- py_get dxmax 0 ;;
    d0 <- py_get dxmax0 0 ;;
    if negb nr_success then
      if d0 * cf_minfac cfg <? d then
        let final := (z + 1 =? cf_cycl cfg)%Z in
        let z' := if final then 0%Z else z in
        if (j0 =? j)%Z || final then
          if cf_reduce cfg =? f0 then Err ZeroDivisionError
          else Ok (map (fun x => x / cf_reduce cfg) dxmax, z', 0%Z, true)
        else Ok (dxmax, z', b, false)
      else Ok (dxmax, z, b, false)
    else
      if d <? d0 * cf_maxfac cfg then
        if (j0 =? j)%Z then
          if (0 <? z)%Z then Ok (dxmax, z, b, false)
          else if (b <=? 3)%Z then Ok (dxmax, z, b, false)
          else
            let fac := f1 + fofZ (nfev - n) / fofZ nfev * cf_increase cfg in
            Ok (map (fun x => x * fac) dxmax, z, b, true)
        else Ok (dxmax, z, b, false)
      else
        if (j =? j0)%Z then Ok (map (fun x => x * cf_maxfac cfg) dxmax0, z, b, true)
        else Ok (dxmax, z, b, false).

  (** [int(i * np.sign(v))] (int(nan) raises) *)
  Definition signed_index (i : nat) (v : F) : res Z :=
    if fisnan v then Err ValueError
    else Ok (Z.of_nat i * (if (f0 <? v)%num then 1 else if (v <? f0)%num then -1 else 0))%Z.

  (** tpsolver.py:389-393, 445-448: 1-based index and signed value of the
      largest entry of abs(Dx/dxmax); [np.sort(a)] is [a[np.argsort(a)]]. *)
  Definition biggest (Dx dxmax : list F) : res (nat * F) :=
    q <- bcast2 fdiv Dx dxmax ;;
    let ix := argsortF (map fabs q) in
    i <- py_get ix (-1) ;;
    v <- (match nth_error q i with Some v => Ok v | None => Err IndexError end) ;;
    Ok (Datatypes.S i, fabs v * fsign v).

  (** Lines printed unconditionally: "recycling increment", ERROR 1, ERROR 2,
      EXIT 1.  [MIncr] marks the beginning of an increment (printed if
      verbose > 0). *)
  Inductive msg := MIncr | MRecycle | MError1 | MError2 | MExit1.

  (** tpsolver.py:365-406: pre-identification of j.  Result: analysis, new j,
      success flag after the dxtol test, n_pre, Dx_pre, Dxs_pre[-1]. *)
  Record pre_out := PreOut {
    pr_an : AN; pr_j : Z; pr_success : bool; pr_n : Z; pr_Dx : list F; pr_v : F }.

  Definition predict (g : gfun) (dg : kfun) (cfg : pfcfg) (x dxmax : list F) (j : Z) (an : AN)
      : res pre_out :=
    xj <- py_get x (Z.abs j - 1) ;;
    dj <- py_get dxmax (Z.abs j - 1) ;;
    let xmax := xj + dj * fofZ (Z.sgn j) in
    ' (an1, o) <- newton solve (f_ext g x j xmax false) (dfdx dg j) x 1
                         (cf_ftol cfg) (cf_xtol cfg) an ;;
    Dx <- bcast2 fsub (no_x o) x ;;
    ' (i1, v1) <- biggest Dx dxmax ;;
    j' <- signed_index i1 v1 ;;
    let ok := if cf_dxtol cfg <? fabs v1 then false else no_success o in
    Ok (PreOut an1 j' ok (no_n o) Dx v1).

  (** Values that change inside the recycle loop. *)
  Record rcst := Rc {
    rc_an : AN; rc_z : Z; rc_j : Z; rc_dxmax : list F; rc_b : Z; rc_npre : Z; rc_out : list msg }.

  (** tpsolver.py:413-542 the recycle loop, [pre] = (Dx_pre, Dxs_pre[-1]) when
      j_pre is truthy and j is not locked.  Returns the loop variables, x and
      the [stop] flag. *)
  Fixpoint recycle (g : gfun) (dg : kfun) (cfg : pfcfg) (x0 dxmax0 : list F)
      (pre : option (list F * F)) (fuel : nat) (s : rcst) : res (rcst * list F * bool) :=
    match fuel with
    | O => Timeout
    | Datatypes.S fuel' =>
        let j0 := rc_j s in
        let dxmax := rc_dxmax s in
        xj <- py_get x0 (Z.abs j0 - 1) ;;
        dj <- py_get dxmax (Z.abs j0 - 1) ;;
        let xmax := xj + dj * fofZ (Z.sgn j0) in
        xs <- match pre with
              | Some (Dx_pre, v) =>
                  if (rc_z s =? 0)%Z
                  then bcast2 fadd x0 (map (fun d => d / fabs v) Dx_pre)
                  else Ok x0
              | None => Ok x0
              end ;;
        let nfev := (cf_nfev cfg - rc_npre s)%Z in
        ' (an1, o) <- newton solve (f_ext g x0 j0 xmax false) (dfdx dg j0) xs nfev
                             (cf_ftol cfg) (cf_xtol cfg) (rc_an s) ;;
        let x := no_x o in
        let nr_success := no_success o in
        Dx <- bcast2 fsub x x0 ;;
        ' (i1, v1) <- biggest Dx dxmax ;;
        if Nat.ltb (length x) 2 then Err IndexError        (* line 449: Dxi[-2] *)
        else
        j <- (if cf_jfixed cfg then Ok j0 else signed_index i1 v1) ;;
        let an2 := set_dVmax dxmax an1 in
        q <- bcast2 fdiv Dx dxmax ;;
        valid <- (if cf_jfixed cfg
                  then qj <- py_get q (Z.abs j - 1) ;; Ok (fabs qj <=? cf_dxtol cfg)
                  else Ok (forallb (fun v => fabs v <=? cf_dxtol cfg) q)) ;;
        ' (dxmax', z', b', changed) <-
           (if cf_stepcontrol cfg
            then dxmax_control cfg dxmax dxmax0 j j0 (rc_z s) nr_success (rc_b s) (no_n o) nfev
            else Ok (dxmax, rc_z s, rc_b s, false)) ;;
        if valid && nr_success then
          ' (an3, _) <- f_ext g x0 j0 xmax true x an2 ;;
          Ok (Rc an3 z' j dxmax' (b' + 1)%Z (rc_npre s) (rc_out s), x, false)
        else if (z' + 1 =? cf_cycl cfg)%Z then
          Ok (Rc an2 z' j dxmax' b' (rc_npre s) (rc_out s ++ [MError1]), x, true)
        else if (j0 =? j)%Z && negb nr_success && negb changed then
          Ok (Rc an2 z' j dxmax' b' (rc_npre s) (rc_out s ++ [MError2]), x, true)
        else
          recycle g dg cfg x0 dxmax0 pre fuel'
            (Rc an2 (z' + 1)%Z (if nr_success then j else j0) dxmax' b' 0%Z
                (rc_out s ++ [MRecycle]))
    end.

  (** Loop variables of the increment loop (tpsolver.py:337). [ps_jpre] is the
      truth value of the variable [j_pre], which line 394 overwrites with an
      int. *)
  Record pfst := Pf {
    ps_an : AN; ps_x : list F; ps_j : Z; ps_jpre : bool; ps_dxmax : list F; ps_b : Z;
    ps_res : list (list F * AN); ps_out : list msg }.

  (** tpsolver.py:337-551 one increment; returns the new loop variables and the
      [stop] flag. *)
  Definition increment (g : gfun) (dg : kfun) (cfg : pfcfg) (dxmax0 : list F) (fuel : nat)
      (s : pfst) : res (pfst * bool) :=
    let x0 := ps_x s in
    let out := ps_out s ++ [MIncr] in
    let finish (an : AN) (x : list F) (j : Z) (jpre : bool) (dxmax : list F) (b : Z)
               (out : list msg) : pfst :=
      let an' := set_lpf (last x f0) (set_Ured (removelast x) (set_Vred x an)) in
      Pf an' x j jpre dxmax b (ps_res s ++ [(x, an')]) out in
    if ps_jpre s && negb (cf_jfixed cfg) then
      p <- predict g dg cfg x0 (ps_dxmax s) (ps_j s) (ps_an s) ;;
      let jpre := negb (pr_j p =? 0)%Z in
      if pr_success p then
        Ok (finish (pr_an p) x0 (pr_j p) jpre (ps_dxmax s) (ps_b s) out, false)
      else
        ' (r, x, stop) <- recycle g dg cfg x0 dxmax0
             (if jpre then Some (pr_Dx p, pr_v p) else None) fuel
             (Rc (pr_an p) 0%Z (pr_j p) (ps_dxmax s) (ps_b s) (pr_n p) out) ;;
        Ok (finish (rc_an r) x (rc_j r) jpre (rc_dxmax r) (rc_b r) (rc_out r), stop)
    else
      ' (r, x, stop) <- recycle g dg cfg x0 dxmax0 None fuel
           (Rc (ps_an s) 0%Z (ps_j s) (ps_dxmax s) (ps_b s) 0%Z out) ;;
      Ok (finish (rc_an r) x (rc_j r) (ps_jpre s) (rc_dxmax r) (rc_b r) (rc_out r), stop).

  (** tpsolver.py:562-563 *)
  Definition beyond_limit (cfg : pfcfg) (x : list F) : res bool :=
    match cf_xlimit cfg with
    | None => Ok false
    | Some (k, lim) =>
        xk <- py_get x (k - 1) ;;
        Ok (match lim with None => false | Some m => m <? fabs xk end)
    end.

  (** tpsolver.py:337-565 the loop over increments, [k] increments left. *)
  Fixpoint increments (g : gfun) (dg : kfun) (cfg : pfcfg) (dxmax0 : list F) (fuel : nat)
      (k : nat) (s : pfst) : res pfst :=
    match k with
    | O => Ok s
    | Datatypes.S k' =>
        ' (s1, stop) <- increment g dg cfg dxmax0 fuel s ;;
        if (stop : bool) then Ok s1
        else
          lim <- beyond_limit cfg (ps_x s1) ;;
          if (lim : bool)
          then Ok (Pf (ps_an s1) (ps_x s1) (ps_j s1) (ps_jpre s1) (ps_dxmax s1) (ps_b s1)
                      (ps_res s1) (ps_out s1 ++ [MExit1]))
          else increments g dg cfg dxmax0 fuel k' s1
    end.

  (** Argument [dxmax]: a scalar or an array. *)
  Inductive dxarg := DxScalar (d : F) | DxVec (l : list F).

  (** tpsolver.py:310-324 *)
  Definition expand_dxmax (n : nat) (d : dxarg) : list F :=
    match d with
    | DxScalar d => map (fun o => o * d) (repeat f1 n)
    | DxVec [du; dlpf] => map (fun o => o * du) (repeat f1 (n - 1)) ++ [dlpf]
    | DxVec l => l
    end.

  (** tpsolver.py:198-567 [pathfollow]; [Ok] carries the final loop variables,
      whose [ps_res] is zip(res_x, res_a). [fuel] bounds the Newton runs of each
      increment. *)
  Definition pathfollow (g : gfun) (dg : kfun) (Ured : list F) (an : AN) (d : dxarg)
      (j : option Z) (j_pre : bool) (cfg : pfcfg) (fuel : nat) : res pfst :=
    let x := Ured ++ [f0] in
    let dxmax := expand_dxmax (length x) d in
    let start j := Pf an x j j_pre dxmax 4%Z [(x, an)] [] in
    if negb (cf_jfixed cfg) then
      increments g dg cfg dxmax fuel (Z.to_nat (cf_incs cfg)) (start (Z.of_nat (length x)))
    else match j with
         | Some j => increments g dg cfg dxmax fuel (Z.to_nat (cf_incs cfg)) (start j)
         | None => if (cf_incs cfg <=? 0)%Z then Ok (start 0%Z) else Err TypeError
         end.
End Pathfollow.
Arguments pfcfg : clear implicits.
Arguments pfst : clear implicits.
Arguments rcst : clear implicits.
Arguments pre_out : clear implicits.
Arguments dxarg : clear implicits.
Arguments gfun : clear implicits.
Arguments kfun : clear implicits.
