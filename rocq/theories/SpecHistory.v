(** * Vocabulary for member histories over whole sessions *)
From Coq Require Import List ZArith Bool Arith Reals.
Import ListNotations.
From Verif Require Import Num NumR Vec Handlers Material Analysis Equil Solver Run SpecMech SpecBuild SpecSolver SpecRun SpecMaterial.

Section Spec.
  Context {F : Type} `{NF : Num F}.
  Variable argsortF : list F -> list nat.
  Variable solve : list (list F) -> list F -> list F.
  Variable argsortZ : list Z -> list nat.

  (** A session together with the accepted increments of all its runs, in order:
      build, then any number of runs of at least one step; in between the settings
      may be changed (not the number of state variables). *)
  Inductive traced (P : settings F -> Prop) (m : model F) : model F -> list (analysis F) -> Prop :=
  | t_build m' : build argsortZ m = Ok m' -> traced P m m' []
  | t_run m1 recs fuel m2 out logs goods : traced P m m1 recs -> P (m_set m1) ->
      ran_as argsortF solve m1 fuel m2 out logs -> Forall2 good_part logs goods ->
      traced P m m2 (recs ++ map snd (concat goods))
  | t_settings m1 recs st : traced P m m1 recs -> s_nstatev st = s_nstatev (m_set m1) ->
      traced P m (with_settings st m1) recs.

  (** What an increment shows of member number [k]: its strain (stretch minus 1),
      and its stress with its row of state variables. *)
  Definition member_strain (k : nat) (a : analysis F) : F := fsub (nth k (a_stretch a) f0) f1.
  Definition member_row (k : nat) (a : analysis F) : list F :=
    match a_state a with Some sv => nth k sv [] | None => [] end.
  Definition member_out (k : nat) (a : analysis F) : F * list F := (nth k (a_stress a) f0, member_row k a).

  (** [law_run u mat row0 h outs]: feeding the strains [h] to the law [u] one after
      the other, starting with the state variables [row0] and handing on what the
      law returns, yields the stresses and state variables [outs].  The law does not
      depend on the strain increment. *)
  Inductive law_run (u : umat_id) (mat row0 : list F) : list F -> list (F * list F) -> Prop :=
  | lr_nil : law_run u mat row0 [] []
  | lr_snoc h outs e s t row : law_run u mat row0 h outs ->
      (forall de, umat u e de mat (Some (last (map snd outs) row0)) = Ok (s, t, Some row)) ->
      law_run u mat row0 (h ++ [e]) (outs ++ [(s, row)]).

  (** [kept k row0 l l']: [l'] are the increments of [l] without some that show the
      state variables of the last one kept (of the start if there is none). *)
  Inductive kept (k : nat) (row0 : list F) : list (analysis F) -> list (analysis F) -> Prop :=
  | kept_nil : kept k row0 [] []
  | kept_take l l' a : kept k row0 l l' -> kept k row0 (l ++ [a]) (l' ++ [a])
  | kept_skip l l' a : kept k row0 l l' -> member_row k a = last (map (member_row k) l') row0 ->
      kept k row0 (l ++ [a]) l'.
End Spec.

(** Exact arithmetic: stress, yield stress and plastic strain of the plastic member
    number [k] in an increment. *)
Definition plastic_out (k : nat) (a : analysis R) : mat_state :=
  (fst (member_out k a), nth 0 (snd (member_out k a)) 0%R, nth 1 (snd (member_out k a)) 0%R).
