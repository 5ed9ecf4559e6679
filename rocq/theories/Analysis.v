(** * Analysis object (src/trusspy/core/analysis.py)

    Fields that Python sets later (Vred, Kred, Kmod, j, dVmax, f0red, ExtForces)
    are present from the start with empty values; [element_stress0] and [rred]
    are never read or changed after build and are left out.
    [a_fconst]/[a_forces] are [ExtForces.forces_const]/[ExtForces.forces]. *)
From Coq Require Import List ZArith Bool.
Import ListNotations.
From Verif Require Import Num Vec.

Record analysis (F : Type) := An {
  a_step : Z;
  a_U : list (v3 F);
  a_U0 : list (v3 F);
  a_r : list (v3 F);
  a_g : list F;
  a_K : list (list (m3 F));
  a_stretch : list F;
  a_force : list F;
  a_stress : list F;
  a_DOF0 : list nat;
  a_DOF1 : list nat;
  a_Ured : list F;
  a_Vred : list F;
  a_lpf : F;
  a_state : option (list (list F));
  a_dVmax : list F;
  a_j : Z;
  a_Kred : list (list F);
  a_Kmod : list (list F);
  a_f0red : list F;
  a_fconst : list (list F);
  a_forces : list (list F)
}.
Arguments An {F}.
Arguments a_step {F}. Arguments a_U {F}. Arguments a_U0 {F}. Arguments a_r {F}.
Arguments a_g {F}. Arguments a_K {F}. Arguments a_stretch {F}. Arguments a_force {F}.
Arguments a_stress {F}. Arguments a_DOF0 {F}. Arguments a_DOF1 {F}. Arguments a_Ured {F}.
Arguments a_Vred {F}. Arguments a_lpf {F}. Arguments a_state {F}. Arguments a_dVmax {F}.
Arguments a_j {F}. Arguments a_Kred {F}. Arguments a_Kmod {F}. Arguments a_f0red {F}.
Arguments a_fconst {F}. Arguments a_forces {F}.

(** Attribute assignments [analysis.x = v]. *)
Section Setters.
  Context {F : Type}.
  Implicit Type a : analysis F.
  Definition set_step (v : Z) a := An v (a_U a) (a_U0 a) (a_r a) (a_g a) (a_K a) (a_stretch a) (a_force a) (a_stress a) (a_DOF0 a) (a_DOF1 a) (a_Ured a) (a_Vred a) (a_lpf a) (a_state a) (a_dVmax a) (a_j a) (a_Kred a) (a_Kmod a) (a_f0red a) (a_fconst a) (a_forces a).
  Definition set_U (v : list (v3 F)) a := An (a_step a) v (a_U0 a) (a_r a) (a_g a) (a_K a) (a_stretch a) (a_force a) (a_stress a) (a_DOF0 a) (a_DOF1 a) (a_Ured a) (a_Vred a) (a_lpf a) (a_state a) (a_dVmax a) (a_j a) (a_Kred a) (a_Kmod a) (a_f0red a) (a_fconst a) (a_forces a).
  Definition set_U0 (v : list (v3 F)) a := An (a_step a) (a_U a) v (a_r a) (a_g a) (a_K a) (a_stretch a) (a_force a) (a_stress a) (a_DOF0 a) (a_DOF1 a) (a_Ured a) (a_Vred a) (a_lpf a) (a_state a) (a_dVmax a) (a_j a) (a_Kred a) (a_Kmod a) (a_f0red a) (a_fconst a) (a_forces a).
  Definition set_r (v : list (v3 F)) a := An (a_step a) (a_U a) (a_U0 a) v (a_g a) (a_K a) (a_stretch a) (a_force a) (a_stress a) (a_DOF0 a) (a_DOF1 a) (a_Ured a) (a_Vred a) (a_lpf a) (a_state a) (a_dVmax a) (a_j a) (a_Kred a) (a_Kmod a) (a_f0red a) (a_fconst a) (a_forces a).
  Definition set_g (v : list F) a := An (a_step a) (a_U a) (a_U0 a) (a_r a) v (a_K a) (a_stretch a) (a_force a) (a_stress a) (a_DOF0 a) (a_DOF1 a) (a_Ured a) (a_Vred a) (a_lpf a) (a_state a) (a_dVmax a) (a_j a) (a_Kred a) (a_Kmod a) (a_f0red a) (a_fconst a) (a_forces a).
  Definition set_K (v : list (list (m3 F))) a := An (a_step a) (a_U a) (a_U0 a) (a_r a) (a_g a) v (a_stretch a) (a_force a) (a_stress a) (a_DOF0 a) (a_DOF1 a) (a_Ured a) (a_Vred a) (a_lpf a) (a_state a) (a_dVmax a) (a_j a) (a_Kred a) (a_Kmod a) (a_f0red a) (a_fconst a) (a_forces a).
  Definition set_stretch (v : list F) a := An (a_step a) (a_U a) (a_U0 a) (a_r a) (a_g a) (a_K a) v (a_force a) (a_stress a) (a_DOF0 a) (a_DOF1 a) (a_Ured a) (a_Vred a) (a_lpf a) (a_state a) (a_dVmax a) (a_j a) (a_Kred a) (a_Kmod a) (a_f0red a) (a_fconst a) (a_forces a).
  Definition set_force (v : list F) a := An (a_step a) (a_U a) (a_U0 a) (a_r a) (a_g a) (a_K a) (a_stretch a) v (a_stress a) (a_DOF0 a) (a_DOF1 a) (a_Ured a) (a_Vred a) (a_lpf a) (a_state a) (a_dVmax a) (a_j a) (a_Kred a) (a_Kmod a) (a_f0red a) (a_fconst a) (a_forces a).
  Definition set_stress (v : list F) a := An (a_step a) (a_U a) (a_U0 a) (a_r a) (a_g a) (a_K a) (a_stretch a) (a_force a) v (a_DOF0 a) (a_DOF1 a) (a_Ured a) (a_Vred a) (a_lpf a) (a_state a) (a_dVmax a) (a_j a) (a_Kred a) (a_Kmod a) (a_f0red a) (a_fconst a) (a_forces a).
  Definition set_Ured (v : list F) a := An (a_step a) (a_U a) (a_U0 a) (a_r a) (a_g a) (a_K a) (a_stretch a) (a_force a) (a_stress a) (a_DOF0 a) (a_DOF1 a) v (a_Vred a) (a_lpf a) (a_state a) (a_dVmax a) (a_j a) (a_Kred a) (a_Kmod a) (a_f0red a) (a_fconst a) (a_forces a).
  Definition set_Vred (v : list F) a := An (a_step a) (a_U a) (a_U0 a) (a_r a) (a_g a) (a_K a) (a_stretch a) (a_force a) (a_stress a) (a_DOF0 a) (a_DOF1 a) (a_Ured a) v (a_lpf a) (a_state a) (a_dVmax a) (a_j a) (a_Kred a) (a_Kmod a) (a_f0red a) (a_fconst a) (a_forces a).
  Definition set_lpf (v : F) a := An (a_step a) (a_U a) (a_U0 a) (a_r a) (a_g a) (a_K a) (a_stretch a) (a_force a) (a_stress a) (a_DOF0 a) (a_DOF1 a) (a_Ured a) (a_Vred a) v (a_state a) (a_dVmax a) (a_j a) (a_Kred a) (a_Kmod a) (a_f0red a) (a_fconst a) (a_forces a).
  Definition set_state (v : option (list (list F))) a := An (a_step a) (a_U a) (a_U0 a) (a_r a) (a_g a) (a_K a) (a_stretch a) (a_force a) (a_stress a) (a_DOF0 a) (a_DOF1 a) (a_Ured a) (a_Vred a) (a_lpf a) v (a_dVmax a) (a_j a) (a_Kred a) (a_Kmod a) (a_f0red a) (a_fconst a) (a_forces a).
  Definition set_dVmax (v : list F) a := An (a_step a) (a_U a) (a_U0 a) (a_r a) (a_g a) (a_K a) (a_stretch a) (a_force a) (a_stress a) (a_DOF0 a) (a_DOF1 a) (a_Ured a) (a_Vred a) (a_lpf a) (a_state a) v (a_j a) (a_Kred a) (a_Kmod a) (a_f0red a) (a_fconst a) (a_forces a).
  Definition set_j (v : Z) a := An (a_step a) (a_U a) (a_U0 a) (a_r a) (a_g a) (a_K a) (a_stretch a) (a_force a) (a_stress a) (a_DOF0 a) (a_DOF1 a) (a_Ured a) (a_Vred a) (a_lpf a) (a_state a) (a_dVmax a) v (a_Kred a) (a_Kmod a) (a_f0red a) (a_fconst a) (a_forces a).
  Definition set_Kred (v : list (list F)) a := An (a_step a) (a_U a) (a_U0 a) (a_r a) (a_g a) (a_K a) (a_stretch a) (a_force a) (a_stress a) (a_DOF0 a) (a_DOF1 a) (a_Ured a) (a_Vred a) (a_lpf a) (a_state a) (a_dVmax a) (a_j a) v (a_Kmod a) (a_f0red a) (a_fconst a) (a_forces a).
  Definition set_Kmod (v : list (list F)) a := An (a_step a) (a_U a) (a_U0 a) (a_r a) (a_g a) (a_K a) (a_stretch a) (a_force a) (a_stress a) (a_DOF0 a) (a_DOF1 a) (a_Ured a) (a_Vred a) (a_lpf a) (a_state a) (a_dVmax a) (a_j a) (a_Kred a) v (a_f0red a) (a_fconst a) (a_forces a).
  Definition set_f0red (v : list F) a := An (a_step a) (a_U a) (a_U0 a) (a_r a) (a_g a) (a_K a) (a_stretch a) (a_force a) (a_stress a) (a_DOF0 a) (a_DOF1 a) (a_Ured a) (a_Vred a) (a_lpf a) (a_state a) (a_dVmax a) (a_j a) (a_Kred a) (a_Kmod a) v (a_fconst a) (a_forces a).
  Definition set_fconst (v : list (list F)) a := An (a_step a) (a_U a) (a_U0 a) (a_r a) (a_g a) (a_K a) (a_stretch a) (a_force a) (a_stress a) (a_DOF0 a) (a_DOF1 a) (a_Ured a) (a_Vred a) (a_lpf a) (a_state a) (a_dVmax a) (a_j a) (a_Kred a) (a_Kmod a) (a_f0red a) v (a_forces a).
  Definition set_forces (v : list (list F)) a := An (a_step a) (a_U a) (a_U0 a) (a_r a) (a_g a) (a_K a) (a_stretch a) (a_force a) (a_stress a) (a_DOF0 a) (a_DOF1 a) (a_Ured a) (a_Vred a) (a_lpf a) (a_state a) (a_dVmax a) (a_j a) (a_Kred a) (a_Kmod a) (a_f0red a) (a_fconst a) v.
End Setters.

Section Build.
  Context {F : Type} `{NF : Num F}.

  Definition zeros3 (n : nat) : list (v3 F) := repeat vzero n.
  Definition zerosK (n : nat) : list (list (m3 F)) := repeat (repeat mzero n) n.

  (** core/analysis.py:85-135 [Analysis.build] on a fresh object.  [a_g] is
      kept flat. [Ured = U.flatten()[DOF1]] raises for an out-of-range DOF. *)
  Definition analysis_build (nnodes nelems : nat) (DOF0 DOF1 : list nat) (nstatev : Z)
      : res (analysis F) :=
    ured <- gather (vflat (zeros3 nnodes)) DOF1 ;;
    Ok (An 1%Z (zeros3 nnodes) (zeros3 nnodes) (zeros3 nnodes) (repeat f0 (3 * nnodes))
           (zerosK nnodes) (repeat f0 nelems) (repeat f0 nelems) (repeat f0 nelems)
           DOF0 DOF1 ured [] f0
           (if (0 <? nstatev)%Z then Some (repeat (repeat f0 (Z.to_nat nstatev)) nelems) else None)
           [] 0%Z [] [] [] [] []).
End Build.
