(** * Truss element (src/trusspy/elements/element_definition.py) *)
From Coq Require Import List ZArith Bool.
Import ListNotations.
From Verif Require Import Num Vec Material Analysis.

Inductive stage := StG | StK.

Section Truss.
  Context {F : Type} `{NF : Num F}.
  Local Open Scope num_scope.

  (** Element quantities of element_definition.py:32-65. *)
  Record truss_q := TrussQ {
    q_n : v3 F;          (* deformed unit direction *)
    q_L : F;             (* undeformed length *)
    q_l : F;             (* deformed length *)
    q_lam : F;           (* stretch *)
    q_stress : F;
    q_dsde : F;
    q_A : F;
    q_N : F;             (* normal force *)
    q_state : option (list F)
  }.

  (** element_definition.py:27-65.  [sve] is the element's state row
      (lines 56-59).  Lines 69-74 (T, B, KT and the first KTEE) only compute
      values that are overwritten or unused and are left out. *)
  Definition truss_quantities (XA XE UA UE U0A U0E : v3 F) (u : umat_id)
      (mat_prop geo_prop : list F) (sve : option (list F)) : res truss_q :=
    let dU := vsub UE UA in
    let dX := vsub XE XA in
    let dx := vadd dX dU in
    let dU0 := vsub U0E U0A in
    let dx0 := vadd dX dU0 in
    let n := vdivs dx (vnorm dx) in
    let L := fsqrt (vdot dX dX) in
    let l := fsqrt (vdot dx dx) in
    let l0 := fsqrt (vdot dx0 dx0) in
    let lam0 := l0 / L in
    let lam := l / L in
    let E11 := lam - f1 in
    let dE11 := lam - lam0 in
    ' (stress, dsde, sve') <- umat u E11 dE11 mat_prop sve ;;
    A <- item geo_prop 0 ;;
    Ok (TrussQ n L l lam stress dsde A (stress * A) sve').

  (** element_definition.py:94 [KTEE] *)
  Definition truss_KTEE (q : truss_q) : m3 F :=
    madd (mscale (q_dsde q * q_A q / q_L q) (vouter (q_n q) (q_n q)))
         (mscale (q_N q / q_l q) (msub meye (vouter (q_n q) (q_n q)))).

  (** [analysis.K[a, b] += M] *)
  Definition K_add (K : list (list (m3 F))) (a b : nat) (M : m3 F) : res (list (list (m3 F))) :=
    match nth_error K a with
    | None => Err IndexError
    | Some row => match nth_error row b with
                  | None => Err IndexError
                  | Some blk => Ok (set_nth a (set_nth b (madd blk M) row) K)
                  end
    end.

  (** [np.where(labels == l)[0][0]] *)
  Definition first_pos (l : Z) (labels : list Z) : res nat :=
    match positions l labels with [] => Err IndexError | i :: _ => Ok i end.

  (** element_definition.py:11-119 [truss].  [rA], [rE] are rows copied by the
      caller (model.py:532-534).  Returns the analysis and the state table. *)
  Definition truss (e NA NE : Z) (XA XE UA UE U0A U0E rA rE : v3 F)
      (nodelist elementlist : list Z) (st : stage) (state_v : option (list (list F)))
      (mat_prop geo_prop : list F) (u : umat_id) (an : analysis F)
      : res (analysis F * option (list (list F))) :=
    let pe := positions e elementlist in
    sve <- match state_v with
           | None => Ok None
           | Some sv => r <- gather0 sv pe ;; Ok (Some r)
           end ;;
    q <- truss_quantities XA XE UA UE U0A U0E u mat_prop geo_prop sve ;;
    match st with
    | StG =>
        let rA' := vadd rA (vscale (q_N q) (vneg (q_n q))) in
        let rE' := vadd rE (vscale (q_N q) (q_n q)) in
        str <- put (a_stretch an) pe (q_lam q) ;;
        sts <- put (a_stress an) pe (q_stress q) ;;
        frc <- put (a_force an) pe (q_N q) ;;
        sv' <- match state_v, q_state q with
               | Some sv, Some row => s <- put sv pe row ;; Ok (Some s)
               | _, _ => Ok state_v
               end ;;
        r1 <- put (a_r an) (positions NA nodelist) rA' ;;
        r2 <- put r1 (positions NE nodelist) rE' ;;
        Ok (set_r r2 (set_force frc (set_stress sts (set_stretch str an))), sv')
    | StK =>
        let M := truss_KTEE q in
        iA <- first_pos NA nodelist ;;
        iE <- first_pos NE nodelist ;;
        K1 <- K_add (a_K an) iA iA M ;;
        K2 <- K_add K1 iA iE (mneg M) ;;
        K3 <- K_add K2 iE iA (mneg M) ;;
        K4 <- K_add K3 iE iE M ;;
        Ok (set_K K4 an, state_v)
    end.
End Truss.
