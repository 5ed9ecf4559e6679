(** * Vocabulary: a thicker bar of a softer material, a thinner bar of a stiffer one *)
From Coq Require Import List ZArith Bool Arith Reals.
Import ListNotations.
From Verif Require Import Num NumR Vec Handlers Material Analysis Truss Equil Solver Run SpecMech SpecMechR SpecSame SpecSplit SpecUnit.
Local Open Scope R_scope.

(** The numbers of a material row the law reads: the modulus of elasticity; for an
    elastic-plastic bar also the hardening modulus and the yield stress. *)
Definition law_numbers (u : umat_id) : nat := match u with UmatEl => 1 | UmatPl => 3 end.

(** Bar [b'] between the same nodes and of the same law as bar [b]: its moduli and its
    yield stress are [t] times those of [b], its cross section is the [t]-th part. *)
Definition traded (t : R) (b b' : member R) : Prop :=
  0 < t /\ mb_a b' = mb_a b /\ mb_b b' = mb_b b /\ mb_law b' = mb_law b /\
  firstn (law_numbers (mb_law b)) (mb_mat b') = map (Rmult t) (firstn (law_numbers (mb_law b)) (mb_mat b)) /\
  mb_geo b <> [] /\ mb_geo b' <> [] /\ area b = t * area b'.

(** Bar by bar, each with a factor of its own. *)
Inductive traded_by : list R -> list (member R) -> list (member R) -> Prop :=
| traded_nil : traded_by [] [] []
| traded_cons t ts b b' ms ms' : traded t b b' -> traded_by ts ms ms' -> traded_by (t :: ts) (b :: ms) (b' :: ms').

(** Result [a'] against result [a]: displacements, load factors, reactions, stiffness,
    stretches and member forces are the same; the stress of a bar is multiplied by its
    factor, and so is its yield stress (the first state variable). *)
Definition traded_result (ts : list R) (a a' : analysis R) : Prop :=
  a_step a' = a_step a /\ a_U a' = a_U a /\ a_U0 a' = a_U0 a /\ a_r a' = a_r a /\
  a_g a' = a_g a /\ a_K a' = a_K a /\ a_DOF0 a' = a_DOF0 a /\ a_DOF1 a' = a_DOF1 a /\
  a_Ured a' = a_Ured a /\ a_Vred a' = a_Vred a /\ a_lpf a' = a_lpf a /\
  a_dVmax a' = a_dVmax a /\ a_j a' = a_j a /\ a_Kred a' = a_Kred a /\ a_Kmod a' = a_Kmod a /\
  a_f0red a' = a_f0red a /\ a_fconst a' = a_fconst a /\ a_forces a' = a_forces a /\
  a_stretch a' = a_stretch a /\ a_force a' = a_force a /\
  a_stress a' = map2 Rmult ts (a_stress a) /\
  a_state a' = option_map (map2 rescaled_state ts) (a_state a).

Definition traded_results (ts : list R) (m m' : model R) : Prop :=
  exists u u', m_built m = Some u /\ m_built m' = Some u' /\
    Forall2 (traded_result ts) (u_R u) (u_R u') /\ u_lpf_end u' = u_lpf_end u /\ traded_result ts (u_an u) (u_an u').
