(** * Vocabulary: two descriptions of the same truss *)
From Coq Require Import List ZArith Bool Arith Permutation.
Import ListNotations.
From Verif Require Import Num Vec Handlers Material Analysis Truss Equil Solver Run SpecMech SpecBuild SpecRun.

Section Same.
  Context {F : Type} `{NF : Num F}.
  Variable argsortF : list F -> list nat.
  Variable solve : list (list F) -> list F -> list F.
  Variable argsortZ : list Z -> list nat.

  (** [l'] consists of the entries of [l] at the positions [p], in this order. *)
  Definition picks {A} (p : list nat) (l l' : list A) : Prop :=
    Forall2 (fun i x => nth_error l i = Some x) p l'.

  (** Result [a'] equals result [a] except that the rows of the element arrays
      stand in the order [p]. *)
  Definition same_result (p : list nat) (a a' : analysis F) : Prop :=
    a_step a' = a_step a /\ a_U a' = a_U a /\ a_U0 a' = a_U0 a /\ a_r a' = a_r a /\
    a_g a' = a_g a /\ a_K a' = a_K a /\ a_DOF0 a' = a_DOF0 a /\ a_DOF1 a' = a_DOF1 a /\
    a_Ured a' = a_Ured a /\ a_Vred a' = a_Vred a /\ a_lpf a' = a_lpf a /\
    a_dVmax a' = a_dVmax a /\ a_j a' = a_j a /\ a_Kred a' = a_Kred a /\ a_Kmod a' = a_Kmod a /\
    a_f0red a' = a_f0red a /\ a_fconst a' = a_fconst a /\ a_forces a' = a_forces a /\
    picks p (a_stretch a) (a_stretch a') /\ picks p (a_force a) (a_force a') /\
    picks p (a_stress a) (a_stress a') /\
    match a_state a, a_state a' with
    | Some sv, Some sv' => length sv' = length sv /\ picks p sv sv'
    | None, None => True
    | _, _ => False
    end.

  (** The same results, end load factors and analysis object, element rows in the
      order [p]. *)
  Definition same_results (p : list nat) (m m' : model F) : Prop :=
    exists u u', m_built m = Some u /\ m_built m' = Some u' /\
      Forall2 (same_result p) (u_R u) (u_R u') /\ u_lpf_end u' = u_lpf_end u /\
      same_result p (u_an u) (u_an u').

  (** New node names that keep the order of the labels [ls]. *)
  Definition keeps_order (rho : Z -> Z) (ls : list Z) : Prop :=
    forall a b, In a ls -> In b ls -> (a < b)%Z -> (rho a < rho b)%Z.

  (** Table rows with new names. *)
  Definition renamed {A} (rho : Z -> Z) (mv : A -> A) (rows : list (Z * A)) : list (Z * A) :=
    map (fun r => (rho (fst r), mv (snd r))) rows.

  (** The same bar between the renamed nodes; its own label may differ. *)
  Definition same_bar (rho : Z -> Z) (b b' : member F) : Prop :=
    mb_a b' = rho (mb_a b) /\ mb_b b' = rho (mb_b b) /\
    mb_law b' = mb_law b /\ mb_mat b' = mb_mat b /\ mb_geo b' = mb_geo b.

  (** The same bar drawn from its end node to its begin node. *)
  Definition turned_bar (rho : Z -> Z) (b b' : member F) : Prop :=
    mb_a b' = rho (mb_b b) /\ mb_b b' = rho (mb_a b) /\
    mb_law b' = mb_law b /\ mb_mat b' = mb_mat b /\ mb_geo b' = mb_geo b.

  (** Member number [k] of [ms'] corresponds to number [p k] of [ms]. *)
  Definition bars_by (bar : member F -> member F -> Prop) (p : list nat) (ms ms' : list (member F)) : Prop :=
    Permutation p (seq 0 (length ms)) /\
    Forall2 (fun i b' => exists b, nth_error ms i = Some b /\ bar b b') p ms'.

  (** [m'] has the rows of [m] with node names [rho] and coordinates [mv], in any
      order, and the same settings; its support table, if it has one, is not empty. *)
  Definition redrawn (rho : Z -> Z) (mv : v3 F -> v3 F) (m m' : model F)
      (ns ns' : list (Z * v3 F)) (bs bs' : list (Z * list Z)) (fs fs' : list (Z * list F)) : Prop :=
    keeps_order rho (map fst ns) /\
    Permutation ns' (renamed rho mv ns) /\ Permutation bs' (renamed rho (fun x => x) bs) /\
    Permutation fs' (renamed rho (fun x => x) fs) /\
    m_set m' = m_set m /\ (m_bounds m' = None \/ bs' <> []) /\
    option_map e_width (m_forces m') = option_map e_width (m_forces m).

  (** What a user does after building: runs, and changes of settings; the number of
      state variables keeps its value. *)
  Inductive action := ARun (fuel : nat) | ASet (st : settings F).

  Fixpoint play (acts : list action) (m : model F) : res (model F * list msg) :=
    match acts with
    | [] => Ok (m, [])
    | ARun fuel :: acts =>
        ' (m1, out) <- run argsortF solve m fuel ;;
        ' (m2, out') <- play acts m1 ;;
        Ok (m2, out ++ out')
    | ASet st :: acts => play acts (with_settings (with_nstatev (s_nstatev (m_set m)) st) m)
    end.

  Definition build_and_play (m : model F) (acts : list action) : res (model F * list msg) :=
    m1 <- build argsortZ m ;; play acts m1.
End Same.
Arguments action : clear implicits.
Arguments ARun {F}.
Arguments ASet {F}.
