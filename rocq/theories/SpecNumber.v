(** * Vocabulary: nodes numbered and axes named in another way

    [sg] lists, for the nodes of the second model in their order, the places the same
    nodes have in the first one; [ax] says which axis of the first model the axes of
    the second are. *)
From Coq Require Import List ZArith Bool Arith Permutation Reals.
Import ListNotations.
From Verif Require Import Num NumR Vec Handlers Material Analysis Truss Equil Solver Run SpecBuild SpecSame.
Local Open Scope R_scope.

(** The entries of [l] at the places [p], in this order. *)
Definition pick {A} (p : list nat) (l : list A) : list A :=
  flat_map (fun i => match nth_error l i with Some x => [x] | None => [] end) p.

(** [p] puts [n] things in another order. *)
Definition order (n : nat) (p : list nat) : Prop := Permutation p (seq 0 n).

Definition axes (ax : v3 nat) : Prop := Permutation (vlist ax) [0; 1; 2]%nat.

Section Number.
  Variable ax : v3 nat.

  (** A vector in the coordinates of the second model. *)
  Definition turn {A} (v : v3 A) : v3 A := V3 (vget v (vx ax)) (vget v (vy ax)) (vget v (vz ax)).
  (** Blocks of the stiffness: both indices are directions. *)
  Definition turn_block (M : m3 R) : m3 R := turn (vmap turn M).

  (** Components, three per node: those of the second model, by their places in the
      first one. *)
  Definition comps (sg : list nat) : list nat :=
    flat_map (fun i => [3 * i + vx ax; 3 * i + vy ax; 3 * i + vz ax]%nat) sg.
  (** A row with three numbers per step. *)
  Definition turn_row {A} (r : list A) : list A := pick (comps (seq 0 (length r / 3))) r.

  (** The free components [D1'] of the second model are those of the first, and
      stand in the order [p] among the unknowns. *)
  Definition unknown_order (sg p D1 D1' : list nat) : Prop :=
    order (length D1) p /\ pick D1' (comps sg) = pick p D1.

  (** The unknowns are the free components and, last, the load factor; [k] and [k']
      are numbers (from 1) of the same unknown; 0 means the last one, too. *)
  Definition same_unknown (p : list nat) (k k' : Z) : Prop :=
    (k = 0%Z /\ k' = 0%Z) \/
    exists i i', nth_error (p ++ [length p]) i' = Some i /\ k = Z.of_nat (S i) /\ k' = Z.of_nat (S i').
  (** Control components are such numbers with a sign. *)
  Definition same_control (p : list nat) (j j' : Z) : Prop :=
    Z.sgn j' = Z.sgn j /\ same_unknown p (Z.abs j) (Z.abs j').

  Definition same_option {A} (P : A -> A -> Prop) (x y : option A) : Prop :=
    match x, y with Some a, Some b => P a b | None, None => True | _, _ => False end.
  Definition same_limit (p : list nat) (l l' : Z * option R) : Prop :=
    same_unknown p (fst l) (fst l') /\ snd l' = snd l.
  Definition same_perstep {A} (P : A -> A -> Prop) (x y : perstep A) : Prop :=
    match x, y with Same a, Same b => P a b | Per l, Per l' => Forall2 P l l' | _, _ => False end.

  Definition with_unknowns (j0 : option Z) (xl : perstep (Z * option R)) (s : settings R) : settings R :=
    Settings (s_incs s) (s_stepcontrol s) (s_maxfac s) (s_minfac s) (s_increase s) (s_reduce s)
             (s_dxtol s) (s_ftol s) (s_xtol s) (s_cycl s) (s_nfev s) (s_dlpf s) (s_du s)
             xl (s_log s) j0 (s_jpre s) (s_jfixed s) (s_nstatev s) (s_nsteps s).

  (** The same settings, with a locked control component; it and the limited
      components are named by their new numbers. *)
  Definition renumbered_settings (p : list nat) (s s' : settings R) : Prop :=
    s_jfixed s = true /\
    exists j0' xl', s' = with_unknowns j0' xl' s /\
      same_option (same_control p) (s_j0 s) j0' /\ same_perstep (same_limit p) (s_xlimit s) xl'.

  Definition renumbered_action (p : list nat) (a a' : action R) : Prop :=
    match a, a' with
    | ARun f, ARun f' => f' = f
    | ASet st, ASet st' => renumbered_settings p st st'
    | _, _ => False
    end.

  (** Elements between the renamed nodes. *)
  Definition renamed_elems (rho : Z -> Z) (h : elemH R) : elemH R :=
    ElemH (el_labels h) (map (fun c => (rho (fst c), rho (snd c))) (el_conns h)) (el_etype h) (el_mtype h) (el_mat h) (el_geo h).

  (** The tables a model was given: rows per node, at least two nodes, supports with
      three flags, loads with three numbers per step. *)
  Definition tables (m : model R) (ns : list (Z * v3 R)) (bs : list (Z * list Z)) (fs : list (Z * list R)) : Prop :=
    nodes_are (m_nodes m) ns /\ bounds_are (m_bounds m) bs /\ forces_are (m_forces m) fs /\
    (2 <= length ns)%nat /\ NoDup (map fst ns) /\ (forall r, In r (map snd bs) -> length r = 3%nat) /\
    (forall h, m_forces m = Some h -> (e_width h mod 3 = 0)%nat).

  (** The second model: nodes are called [rho], which may put them in any other
      order, vectors are given in the other coordinates, and rows may be listed in
      another order. *)
  Definition renumbered (rho : Z -> Z) (m m' : model R)
      (ns ns' : list (Z * v3 R)) (bs bs' : list (Z * list Z)) (fs fs' : list (Z * list R)) : Prop :=
    (forall a b, In a (map fst ns) -> In b (map fst ns) -> rho a = rho b -> a = b) /\
    Permutation ns' (renamed rho turn ns) /\ Permutation bs' (renamed rho turn_row bs) /\
    Permutation fs' (renamed rho turn_row fs) /\
    m_elems m' = option_map (renamed_elems rho) (m_elems m) /\
    (m_bounds m' = None \/ bs' <> []) /\
    option_map e_width (m_forces m') = option_map e_width (m_forces m) /\
    s_nstatev (m_set m') = s_nstatev (m_set m).

  (** Result [a'] is result [a] in the new numbers and coordinates: quantities of
      nodes are those of the same nodes, quantities of elements and the load factor
      are the same.  (The bordered matrix [a_Kmod] is not compared.) *)
  Definition renumbered_result (sg p : list nat) (a a' : analysis R) : Prop :=
    a_step a' = a_step a /\
    a_U a' = map turn (pick sg (a_U a)) /\ a_U0 a' = map turn (pick sg (a_U0 a)) /\ a_r a' = map turn (pick sg (a_r a)) /\
    a_g a' = pick (comps sg) (a_g a) /\
    a_K a' = map (fun row => map turn_block (pick sg row)) (pick sg (a_K a)) /\
    a_stretch a' = a_stretch a /\ a_force a' = a_force a /\ a_stress a' = a_stress a /\ a_state a' = a_state a /\
    a_lpf a' = a_lpf a /\ a_dVmax a' = a_dVmax a /\ same_control p (a_j a) (a_j a') /\
    unknown_order sg p (a_DOF1 a) (a_DOF1 a') /\ Permutation (pick (a_DOF0 a') (comps sg)) (a_DOF0 a) /\
    a_Ured a' = pick p (a_Ured a) /\ a_Vred a' = pick (p ++ [length p]) (a_Vred a) /\ a_f0red a' = pick p (a_f0red a) /\
    a_Kred a' = map (pick p) (pick p (a_Kred a)) /\
    a_fconst a' = map turn_row (pick sg (a_fconst a)) /\ a_forces a' = map turn_row (pick sg (a_forces a)).

  Definition renumbered_results (sg p : list nat) (m m' : model R) : Prop :=
    exists u u', m_built m = Some u /\ m_built m' = Some u' /\
      Forall2 (renumbered_result sg p) (u_R u) (u_R u') /\ u_lpf_end u' = u_lpf_end u /\ renumbered_result sg p (u_an u) (u_an u').

  (** Where the nodes are: [sg] finds them by their names. *)
  Definition renumbered_nodes (rho : Z -> Z) (sg : list nat) (m m' : model R) : Prop :=
    exists h h', m_nodes m = Some h /\ m_nodes m' = Some h' /\ order (length (n_labels h)) sg /\
      n_labels h' = map rho (pick sg (n_labels h)) /\ n_coords h' = map turn (pick sg (n_coords h)).
End Number.

(** A linear solver that returns as many unknowns as there are equations, and whose
    answer follows when equations and unknowns are put in another order. *)
Definition order_blind (solve : list (list R) -> list R -> list R) : Prop :=
  (forall M b, length M = length b -> length (solve M b) = length b) /\
  forall M b p, order (length b) p -> length M = length b -> Forall (fun row => length row = length b) M ->
    solve (map (pick p) (pick p M)) (pick p b) = pick p (solve M b).

(** A sort routine for numbers lists every place once. *)
Definition lists_places (argsortF : list R -> list nat) : Prop := forall l, order (length l) (argsortF l).
