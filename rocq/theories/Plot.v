(** * Post-processing (src/trusspy/tools)

    Modelled is the data handed to matplotlib and the order of the movie frames.
    Figures, axes, colours, legends and axis limits are not modelled.  [R] is
    [Results.R], [labels] is [Nodes.labels]. *)
From Coq Require Import List ZArith NArith Bool Arith String Ascii DecimalString.
Import ListNotations.
From Verif Require Import Num Vec Handlers Analysis Run.

(** ** Strings *)
(** Python [needle in hay] *)
Fixpoint contains (needle hay : string) : bool :=
  prefix needle hay ||
  match hay with EmptyString => false | String _ rest => contains needle rest end.

(** [s[-1]] *)
Fixpoint last_char (s : string) : res ascii :=
  match s with
  | EmptyString => Err IndexError
  | String c EmptyString => Ok c
  | String _ rest => last_char rest
  end.

(** [dir_dict[c]], plot_utilities.py:207, 237 *)
Definition dir_dict (c : ascii) : res nat :=
  if Ascii.eqb c "X" then Ok 0
  else if Ascii.eqb c "Y" then Ok 1
  else if Ascii.eqb c "Z" then Ok 2
  else Err KeyError.

(** [int(c)] of one character (ASCII digits only) *)
Definition int_char (c : ascii) : res Z :=
  let n := nat_of_ascii c in
  if (48 <=? n) && (n <=? 57) then Ok (Z.of_nat (n - 48)) else Err ValueError.

Section Data.
  Context {F : Type} `{NF : Num F}.
  Local Open Scope num_scope.

  (** plot_utilities.py:213-224, 241-262: the value of quantity [what] at [node] in
      result [r]; [old] is the previous value of the variable, kept if no branch
      matches. *)
  Definition quantity (labels : list Z) (what : string) (node : res Z) (r : analysis F) (old : F) : res F :=
    if contains "Displacement" what then
      n <- node ;; row <- gather0 (a_U r) (positions n labels) ;;
      c <- last_char what ;; d <- dir_dict c ;; Ok (vget row d)
    else if contains "LPF" what then Ok (a_lpf r)
    else if contains "Force" what then
      n <- node ;; row <- gather0 (a_r r) (positions n labels) ;;
      c <- last_char what ;; d <- dir_dict c ;; Ok (vget row d)
    else if contains "State Variable" what then
      c <- last_char what ;; z <- int_char c ;;
      match a_state r with
      | None => Err TypeError                       (* None is not subscriptable *)
      | Some sv => n <- node ;; row <- gather0 sv (positions n labels) ;; py_get row (z - 1)
      end
    else Ok old.

  (** plot_utilities.py:233-272 [p_history]: the lists passed to [ax.plot]. *)
  Definition p_history (labels : list Z) (R : list (analysis F)) (nodes : list Z) (X Y : string)
      : res (list F * list F) :=
    ' (_, _, xx, yy) <-
      foldM (fun s r =>
               let '(x, y, xx, yy) := s in
               x' <- quantity labels X (py_get nodes 0) r x ;;
               y' <- quantity labels Y (py_get nodes 1) r y ;;
               Ok (x', y', xx ++ [x'], yy ++ [y']))
            R (fnan, fnan, [f0], [f0]) ;;
    let count := map (fun k => fofZ (Z.of_nat k)) (seq 0 (1 + List.length R)) in
    let xx := if contains "Increments" X then count else xx in
    let yy := if contains "Increments" Y then count else yy in
    _ <- py_get nodes 0 ;;                          (* label of the curve *)
    if Nat.eqb (List.length xx) (List.length yy) then Ok (xx, yy) else Err ValueError.

  (** plot_utilities.py:203-230 [p_path] with helper_functions2.py:56-76
      [plot_pth]: abscissae, values and tick labels.  [is_range] tells whether
      the path was given as a range object; [plot_pth] compares it with
      range(min, max + 1). *)
  Definition p_path (labels : list Z) (R : list (analysis F)) (nodepath : list Z) (is_range : bool)
      (increment : Z) (Y : string) : res (list Z * list F) :=
    r <- py_get R increment ;;
    ' (_, yy) <-
      foldM (fun s n =>
               let '(y, yy) := s in
               y' <- quantity labels Y (Ok n) r y ;; Ok (y', yy ++ [y']))
            nodepath (fnan, []) ;;
    match nodepath with
    | [] => Err ValueError                          (* min() of an empty sequence *)
    | a :: _ =>
        let lo := fold_left Z.min nodepath a in
        let hi := fold_left Z.max nodepath a in
        let full := map (fun k => lo + Z.of_nat k)%Z (seq 0 (Z.to_nat (hi - lo + 1))) in
        if is_range && (if list_eq_dec Z.eq_dec nodepath full then true else false)
        then Ok (nodepath, yy)
        else Ok (map Z.of_nat (seq 0 (List.length nodepath)), yy)
    end.

  (** ** plot_model *)
  Inductive view := VXZ | VXY | VYZ | V3D | VOther.
  (** Axes shown: helper_functions2.py:79-85, 103-110, 217-222. *)
  Definition axes (v : view) : list nat :=
    match v with VXZ => [0; 2] | VXY => [0; 1] | VYZ => [1; 2] | V3D => [0; 1; 2] | VOther => [] end.
  Definition project (v : view) (p : v3 F) : list F := map (vget p) (axes v).

  Inductive contour := CName (name : string) | CTuple (name : string) (lim : F * F).

  (** Builtin [max] of a 1-D array. *)
  Definition pymax (l : list F) : res F :=
    match l with
    | [] => Err ValueError
    | a :: l => Ok (fold_left (fun m x => if m <? x then x else m) l a)
    end.

  (** Data of the contour plot: values and colour limits. *)
  Definition contour_data (name : string) (r : analysis F) : option (list F) :=
    if String.eqb name "stretch" then Some (a_stretch r)
    else if String.eqb name "force" then Some (a_force r)
    else if String.eqb name "stress" then Some (a_stress r)
    else None.

  (** plot_utilities.py:60-96; [cbar] is [None] for "auto". *)
  Definition contour_of (r : analysis F) (c : option contour) (cbar : option (F * F))
      : res (option (list F * (F * F))) :=
    match c with
    | None => Ok None
    | Some (CName name) =>
        match contour_data name r with
        | None => Ok None
        | Some data =>
            lim <- match cbar with
                   | Some lim => Ok lim
                   | None =>
                       if String.eqb name "stretch"
                       then m <- pymax (map (fun s => fabs (s - f1)) data) ;; Ok (f1 - m, f1 + m)
                       else m <- pymax (map fabs data) ;; Ok (- m, m)
                   end ;;
            Ok (Some (data, lim))
        end
    | Some (CTuple name lim) =>
        match contour_data name r with
        | None => Err UnboundLocalError
        | Some data => Ok (Some (data, lim))
        end
    end.

  (** What is drawn: increment shown ([None]: the title UNDEFORMED), arrows (start
      and vector), node markers, members (two end points and the contour value)
      and the colour limits. *)
  Record scene := Scene {
    sc_inc : option Z;
    sc_arrows : list (list F * list F);
    sc_nodes : list (list F);
    sc_members : list (list F * list F * option F);
    sc_limits : option (F * F) }.

  (** helper_functions2.py:102-211 [plot_force]: one arrow per nonzero shown
      component, along this axis. *)
  Definition node_arrows (v : view) (scale : F) (f : list F) (p : v3 F) : list (list F * list F) :=
    flat_map (fun d =>
      let fd := nth d f f0 in
      if fd =? f0 then []
      else [(project v p, map (fun d' => if Nat.eqb d' d then scale * fd else f0) (axes v))])
      (match v with V3D => [2; 1; 0] | _ => axes v end).

  (** helper_functions2.py:214-275 [plot_elems], the loop over elements. *)
  Definition draw_members (v : view) (conns : list (Z * Z)) (X : list (v3 F)) (con : option (list F))
      : res (list (list F * list F * option F)) :=
    foldM (fun acc ke =>
             let '(k, (na, ne)) := ke in
             col <- match con with
                    | None => Ok None
                    | Some data => match nth_error data k with
                                   | Some c => Ok (Some c)
                                   | None => Err IndexError
                                   end
                    end ;;
             a <- py_get X (na - 1) ;;
             b <- py_get X (ne - 1) ;;
             Ok (acc ++ [(project v a, project v b, col)]))
          (combine (seq 0 (List.length conns)) conns) [].

  (** [coords + U]; different numbers of rows raise (the broadcast of a single row
      is left out). *)
  Definition add_rows (a b : list (v3 F)) : res (list (v3 F)) :=
    if Nat.eqb (List.length a) (List.length b) then Ok (map2 vadd a b) else Err ValueError.

  (** [f0_const + lpf * forces[:, 3*(step-1):3*step]]; rows must have three
      entries (the broadcast of shorter rows is left out). *)
  Definition total_load (rows : list (list F)) (fconst : list (list F)) (lpf : F) (step : Z)
      : res (list (list F)) :=
    let s := Z.to_nat (step - 1) in
    let blk := map (fun r => firstn 3 (skipn (3 * s) r)) rows in
    if Nat.eqb (List.length fconst) (List.length blk) &&
       forallb (fun r => Nat.eqb (List.length r) 3) fconst && forallb (fun r => Nat.eqb (List.length r) 3) blk
    then Ok (map2 (fun a b => map2 (fun x y => x + lpf * y) a b) fconst blk)
    else Err ValueError.

  (** plot_utilities.py:33-173 [p_model].  [rows] is [ExtForces.forces], [conns]
      [Elements.conns], [coords] [Nodes.coords]. *)
  Definition p_model (coords : list (v3 F)) (conns : list (Z * Z)) (rows : list (list F))
      (R : list (analysis F)) (v : view) (c : option contour) (force_scale : F)
      (cbar : option (F * F)) (inc : Z) : res scene :=
    let inc := if (inc <? 0)%Z then (Z.of_nat (List.length R) + inc)%Z else inc in
    r <- py_get R inc ;;
    let und := (inc =? 0)%Z in
    let lpf := if und then f1 else a_lpf r in
    let c := if und then None else c in
    con <- contour_of r c cbar ;;
    f <- total_load rows (a_fconst r) lpf (a_step r) ;;
    X <- add_rows coords (a_U r) ;;
    match v with VOther => Err UnboundLocalError | _ =>
      members <- draw_members v conns X (option_map fst con) ;;
      match con, conns with
      | Some _, [] => Err UnboundLocalError             (* colorbar(s_m) *)
      | _, _ =>
          Ok (Scene (if und then None else Some inc)
                (flat_map (fun fp => node_arrows v force_scale (fst fp) (snd fp)) (combine f X))
                (map (project v) X) members (option_map snd con))
      end
    end.

  (** ** plot_movie *)
  (** ["{:03d}".format(i)] *)
  Definition pad3 (i : Z) : string :=
    let digits := NilEmpty.string_of_uint (N.to_uint (Z.abs_N i)) in
    let width := if (i <? 0)%Z then 2 else 3 in
    let zeros := String.concat "" (repeat "0"%string (width - String.length digits)) in
    ((if (i <? 0)%Z then "-" else "") ++ zeros ++ digits)%string.
  Definition frame_name (i : Z) : string := ("fig_" ++ pad3 i ++ ".png")%string.

  (** [sorted(names)] *)
  Fixpoint insert (s : string) (l : list string) : list string :=
    match l with
    | [] => [s]
    | t :: l' => if String.leb s t then s :: l else t :: insert s l'
    end.
  Definition sorted (l : list string) : list string := fold_right insert [] l.

  (** Writing a file: an existing one is replaced. *)
  Fixpoint write {A} (name : string) (x : A) (files : list (string * A)) : list (string * A) :=
    match files with
    | [] => [(name, x)]
    | (n, y) :: rest => if String.eqb n name then (n, x) :: rest else (n, y) :: write name x rest
    end.
  Fixpoint lookup {A} (name : string) (files : list (string * A)) : res A :=
    match files with
    | [] => Err OSError
    | (n, y) :: rest => if String.eqb n name then Ok y else lookup name rest
    end.

  (** movie_generator.py:14-27 [png_to_gif]; [listdir] returns the names in any
      order.  All names end in .png. *)
  Definition png_to_gif {A} (listdir : list string -> list string) (files : list (string * A)) : res (list A) :=
    foldM (fun acc n => x <- lookup n files ;; Ok (acc ++ [x])) (sorted (listdir (map fst files))) [].

  (** plot_utilities.py:176-200 [p_movie]: the frames of the movie, for [draw] the
      picture of an increment; [incs] is [None] for "all".  The directory is
      emptied first. *)
  Definition p_movie (listdir : list string -> list string) (draw : Z -> res scene)
      (nR : nat) (incs : option (list Z)) : res (list scene) :=
    let incs := match incs with Some l => l | None => map Z.of_nat (seq 1 (nR - 1)) end in
    files <- foldM (fun fs i => s <- draw i ;; Ok (write (frame_name i) s fs)) incs [] ;;
    png_to_gif listdir files.

  (** ** The methods of the model, model.py:584-644 *)
  (** A model that was never built has no [Results]; [Nodes.labels] exists after
      the first node. *)
  Definition with_results {A} (m : model F) (k : nodeH F -> built F -> res A) : res A :=
    match m_built m, m_nodes m with
    | Some u, Some nh => k nh u
    | _, _ => Err AttributeError
    end.

  Definition plot_history (m : model F) (nodes : list Z) (X Y : string) : res (list F * list F) :=
    with_results m (fun nh u => p_history (n_labels nh) (u_R u) nodes X Y).

  Definition plot_path (m : model F) (nodepath : list Z) (is_range : bool) (increment : Z) (Y : string)
      : res (list Z * list F) :=
    with_results m (fun nh u => p_path (n_labels nh) (u_R u) nodepath is_range increment Y).

  Definition plot_model (m : model F) (v : view) (c : option contour) (force_scale : F)
      (cbar : option (F * F)) (inc : Z) : res scene :=
    with_results m (fun nh u =>
      match m_elems m, m_forces m with
      | Some eh, Some fh => p_model (n_coords nh) (el_conns eh) (e_rows fh) (u_R u) v c force_scale cbar inc
      | _, _ => Err AttributeError
      end).

  Definition plot_movie (listdir : list string -> list string) (m : model F) (v : view) (c : option contour)
      (force_scale : F) (cbar : option (F * F)) (incs : option (list Z)) : res (list scene) :=
    with_results m (fun _ u =>
      p_movie listdir (plot_model m v c force_scale cbar) (List.length (u_R u)) incs).
End Data.
Arguments scene : clear implicits.
Arguments contour : clear implicits.
