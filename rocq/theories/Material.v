(** * Material laws (src/trusspy/materials/material_definition.py)

    A law maps total strain, strain increment, material properties and the
    element's state row to (stress, tangent, state row).  The thermal tangent
    [dsdt] is always 0 and unused; it is left out. *)
From Coq Require Import List ZArith Bool.
Import ListNotations.
From Verif Require Import Num.

Section Material.
  Context {F : Type} `{NF : Num F}.
  Local Open Scope num_scope.

  (** [mat_prop[i]] *)
  Definition item (l : list F) (i : nat) : res F :=
    match nth_error l i with Some x => Ok x | None => Err IndexError end.

  (** material_definition.py:11-18 [umat_el] *)
  Definition umat_el (e de : F) (mat_prop : list F) (state_v : option (list F))
      : res (F * F * option (list F)) :=
    E <- item mat_prop 0 ;;
    Ok (E * e, E, state_v).

  (** material_definition.py:21-67 [umat_elplast_iso] *)
  Definition umat_elplast_iso (e de : F) (mat_prop : list F) (state_v : option (list F))
      : res (F * F * option (list F)) :=
    E <- item mat_prop 0 ;;
    K <- item mat_prop 1 ;;
    Sy <- item mat_prop 2 ;;
    match state_v with
    | None => Err TypeError                      (* 'NoneType' is not subscriptable *)
    | Some sv =>
        eps_pl_0 <- item sv 1 ;;
        s0 <- item sv 0 ;;
        let stress_yield_0 := if s0 =? f0 then Sy else s0 in
        let stress_trial := E * (e - eps_pl_0) in
        let f_trial := fabs stress_trial - stress_yield_0 in
        if f_trial <=? f0 then
          let stress_yield_1 := stress_yield_0 + K * f0 in
          Ok (stress_trial, E, Some (set_nth 1 eps_pl_0 (set_nth 0 stress_yield_1 sv)))
        else
          let delta_gamma := f_trial / (E + K) in
          let stress_1 := (f1 - (delta_gamma * E) / fabs stress_trial) * stress_trial in
          let eps_pl_1 := eps_pl_0 + delta_gamma * fsign stress_trial in
          let dsde := E * K / (E + K) in
          let stress_yield_1 := stress_yield_0 + K * delta_gamma in
          Ok (stress_1, dsde, Some (set_nth 1 eps_pl_1 (set_nth 0 stress_yield_1 sv)))
    end.

  (** The two functions the variable [umat] can hold (model.py:538-541). *)
  Inductive umat_id := UmatEl | UmatPl.
  Definition umat (u : umat_id) :=
    match u with UmatEl => umat_el | UmatPl => umat_elplast_iso end.
End Material.
