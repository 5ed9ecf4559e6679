(** * Elements of unknown material type *)
From Coq Require Import FunctionalExtensionality List ZArith Bool Arith Lia.
Import ListNotations.
From Verif Require Import Num Vec Handlers Material Analysis Truss Equil Solver Run ListFacts SpecState.

Section Types.
  Context {F : Type} `{NF : Num F}.

  Definition law_for (t : Z) : option umat_id := select_umat None t.

  Lemma effective_length ts : forall p, length (effective p ts) = length ts.
  Proof. induction ts; intros; cbn; auto. Qed.

  Lemma effective_app p l1 l2 : effective p (l1 ++ l2) = effective p l1 ++ effective (last (effective p l1) p) l2.
  Proof.
    revert p. induction l1 as [|t l1 IH]; intros p; [reflexivity|]. cbn [app effective]. rewrite IH. f_equal.
    f_equal. f_equal. destruct (effective _ l1) eqn:E; [reflexivity|].
    set (d := if known_type t then t else p). change (last (d :: z :: l) p) with (last (z :: l) p).
    clear. revert z. induction l as [|y l IH]; intros z; [reflexivity|]. exact (IH y).
  Qed.

  Lemma select_eff prev t : known_type prev = true ->
    select_umat (law_for prev) t = law_for (if known_type t then t else prev) /\
    select_umat (law_for prev) (if known_type t then t else prev) = law_for (if known_type t then t else prev).
  Proof.
    unfold known_type, law_for, select_umat. intros H.
    destruct (Z.eqb_spec t 1) as [->|]; [split; reflexivity|].
    destruct (Z.eqb_spec t 2) as [->|]; [split; reflexivity|]. cbn [orb].
    destruct (Z.eqb_spec prev 1) as [->|]; [split; reflexivity|].
    destruct (Z.eqb_spec prev 2) as [->|]; [split; reflexivity|discriminate].
  Qed.

  Lemma type_at (h : elemH F) k e t : NoDup (el_labels h) -> nth_error (el_labels h) k = Some e ->
    nth_error (el_mtype h) k = Some t -> get_material_type h e = Ok t.
  Proof.
    intros Hn He Ht. unfold get_material_type. rewrite (positions_NoDup _ _ _ Hn He). now apply gather0_one.
  Qed.

  Lemma step_types c ts st Ured lpf w an prev prev' e t t' :
    get_material_type (c_elems c) e = Ok t -> get_material_type (c_elems (with_types ts c)) e = Ok t' ->
    select_umat prev t = select_umat prev' t' ->
    elem_step c st Ured lpf w (an, prev) e = elem_step (with_types ts c) st Ured lpf w (an, prev') e.
  Proof.
    intros H1 H2 Hs. unfold elem_step.
    change (get_nodes (c_elems (with_types ts c)) e) with (get_nodes (c_elems c) e).
    change (get_material_properties (c_elems (with_types ts c)) e) with (get_material_properties (c_elems c) e).
    change (get_geometric_properties (c_elems (with_types ts c)) e) with (get_geometric_properties (c_elems c) e).
    rewrite H1, H2. cbn [fst snd bind]. rewrite Hs. reflexivity.
  Qed.

  Lemma loop_types c st Ured lpf w : NoDup (el_labels (c_elems c)) ->
    length (el_mtype (c_elems c)) = length (el_labels (c_elems c)) ->
    forall ts2 ls2 ls1 ts1 an p, el_labels (c_elems c) = ls1 ++ ls2 -> el_mtype (c_elems c) = ts1 ++ ts2 ->
    length ls1 = length ts1 -> known_type p = true -> forall ts, length ts = length ts1 ->
    foldM (elem_step c st Ured lpf w) ls2 (an, law_for p) =
    foldM (elem_step (with_types (ts ++ effective p ts2) c) st Ured lpf w) ls2 (an, law_for p).
  Proof.
    intros Hn Hlen. induction ts2 as [|t ts2 IH]; intros ls2 ls1 ts1 an p Hl Ht H12 Hp ts Hts.
    - assert (ls2 = []) as ->; [|reflexivity]. apply length_zero_iff_nil.
      rewrite Hl, Ht, !app_length in Hlen. cbn in Hlen. lia.
    - destruct ls2 as [|e ls2]; [reflexivity|]. cbn [foldM].
      set (p' := if known_type t then t else p).
      assert (He : nth_error (el_labels (c_elems c)) (length ls1) = Some e).
      { rewrite Hl, nth_error_app2, Nat.sub_diag by lia. reflexivity. }
      assert (Hg : get_material_type (c_elems c) e = Ok t).
      { eapply type_at; [exact Hn|exact He|]. rewrite Ht, H12, nth_error_app2, Nat.sub_diag by lia. reflexivity. }
      assert (Hg' : get_material_type (c_elems (with_types (ts ++ effective p (t :: ts2)) c)) e = Ok p').
      { eapply (type_at _ (length ls1)); cbn; [exact Hn|exact He|].
        rewrite nth_error_app2, H12, Hts, Nat.sub_diag by lia. reflexivity. }
      destruct (select_eff p t Hp) as [E1 E2].
      rewrite (step_types c (ts ++ effective p (t :: ts2)) st Ured lpf w an (law_for p) (law_for p) e t p' Hg Hg')
        by (fold p' in E1, E2; congruence).
      destruct (elem_step (with_types _ c) st Ured lpf w (an, law_for p) e) as [[an' u]| |] eqn:Es; cbn [bind]; auto.
      assert (Hu : u = law_for p').
      { unfold elem_step in Es. cbn [fst snd] in Es. repeat (apply bind_ok in Es; destruct Es as (? & ? & Es);
          try match type of Es with context [let '(_, _) := ?x in _] => destruct x end).
        rewrite Hg' in *. match goal with H : Ok _ = Ok _ |- _ => injection H as <- end.
        fold p' in E2. rewrite E2 in Es. destruct (law_for p') as [u0|]; [|discriminate].
        apply bind_ok in Es. destruct Es as ([? ?] & _ & Es). injection Es as _ <-. reflexivity. }
      subst u. cbn [effective]. fold p'.
      replace (ts ++ p' :: effective p' ts2) with ((ts ++ [p']) ++ effective p' ts2) by (now rewrite <- app_assoc).
      apply (IH ls2 (ls1 ++ [e]) (ts1 ++ [t])); rewrite <- ?app_assoc, ?app_length; cbn; auto.
      all: first [lia | unfold p'; destruct (known_type t) eqn:E; auto].
  Qed.

  Lemma elem_loop_types c st Ured lpf w an t ts : NoDup (el_labels (c_elems c)) ->
    length (el_mtype (c_elems c)) = length (el_labels (c_elems c)) ->
    el_mtype (c_elems c) = t :: ts -> known_type t = true ->
    elem_loop c st Ured lpf w an = elem_loop (with_types (effective t (t :: ts)) c) st Ured lpf w an.
  Proof.
    intros Hn Hlen Ht Hk. unfold elem_loop. f_equal.
    cbn [c_elems with_types retype el_labels].
    destruct (el_labels (c_elems c)) as [|e ls] eqn:El; [reflexivity|].
    assert (Hg : get_material_type (c_elems c) e = Ok t).
    { apply (type_at _ 0); rewrite ?El, ?Ht; auto. }
    assert (Hg' : get_material_type (c_elems (with_types (effective t (t :: ts)) c)) e = Ok t).
    { apply (type_at _ 0); cbn; rewrite ?El, ?Hk; auto. }
    assert (Hsel : forall q, select_umat q t = law_for t).
    { intros q. unfold law_for, select_umat, known_type in *. destruct (Z.eqb t 1); [reflexivity|].
      destruct (Z.eqb t 2); [reflexivity|discriminate]. }
    transitivity (foldM (elem_step c st Ured lpf w) (e :: ls) (an, law_for t)).
    - cbn [foldM]. f_equal. unfold elem_step. cbn [fst snd]. rewrite Hg. cbn [bind]. now rewrite !Hsel.
    - transitivity (foldM (elem_step (with_types (effective t (t :: ts)) c) st Ured lpf w) (e :: ls) (an, law_for t)).
      + apply (loop_types c st Ured lpf w) with (ts2 := t :: ts) (ls1 := []) (ts1 := []) (ts := []); rewrite ?El; auto.
      + cbn [foldM]. f_equal. unfold elem_step. cbn [fst snd]. rewrite Hg'. cbn [bind]. now rewrite !Hsel.
  Qed.

  Lemma equilibrium_types c V V0 w an t ts : NoDup (el_labels (c_elems c)) ->
    length (el_mtype (c_elems c)) = length (el_labels (c_elems c)) ->
    el_mtype (c_elems c) = t :: ts -> known_type t = true ->
    equilibrium c V V0 w an = equilibrium (with_types (effective t (t :: ts)) c) V V0 w an /\
    stiffness c V an = stiffness (with_types (effective t (t :: ts)) c) V an.
  Proof.
    intros Hn Hlen Ht Hk. unfold equilibrium, stiffness.
    change (equil_prepare (with_types (effective t (t :: ts)) c)) with (equil_prepare c). split.
    - destruct (equil_prepare c StG V V0 an) as [[[an1 U] l]| |]; cbn [bind]; auto.
      now rewrite (elem_loop_types c StG U l w an1 t ts).
    - destruct (equil_prepare c StK V V an) as [[[an1 U] l]| |]; cbn [bind]; auto.
      now rewrite (elem_loop_types c StK U l false an1 t ts).
  Qed.

  (** The first element has an unknown type: no normal return. *)
  Lemma first_unknown c e ls t ts : NoDup (el_labels (c_elems c)) ->
    el_labels (c_elems c) = e :: ls -> el_mtype (c_elems c) = t :: ts -> known_type t = false ->
    (forall V V0 w an r, equilibrium c V V0 w an <> Ok r) /\ (forall V an r, stiffness c V an <> Ok r).
  Proof.
    intros Hn El Ht Hk.
    assert (G : forall st U l w an r, elem_loop c st U l w an <> Ok r).
    { intros st U l w an r H. unfold elem_loop in H. rewrite El in H. cbn [foldM] in H.
      apply bind_ok in H. destruct H as (s & H & _). apply bind_ok in H. destruct H as (s1 & H & _).
      unfold elem_step in H. cbn [fst snd] in H.
      repeat (apply bind_ok in H; destruct H as (? & ? & H);
          try match type of H with context [let '(_, _) := ?x in _] => destruct x end).
      assert (Hg : get_material_type (c_elems c) e = Ok t) by (apply (type_at _ 0); rewrite ?El, ?Ht; auto; now rewrite <- El).
      rewrite Hg in *. match goal with H : Ok _ = Ok _ |- _ => injection H as <- end.
      unfold select_umat, known_type in *. destruct (Z.eqb t 1); [discriminate|]. destruct (Z.eqb t 2); discriminate. }
    split.
    - intros V V0 w an r H. unfold equilibrium in H. apply bind_ok in H. destruct H as ([[a1 U] l] & _ & H).
      apply bind_ok in H. destruct H as (a2 & H & _). now apply G in H.
    - intros V an r H. unfold stiffness in H. apply bind_ok in H. destruct H as ([[a1 U] l] & _ & H).
      apply bind_ok in H. destruct H as (a2 & H & _). now apply G in H.
  Qed.

  (** ** build and run *)
  Lemma existsb_eff : forall ts p, existsb (Z.eqb 2) (effective p ts) = true -> p <> 2%Z ->
    existsb (Z.eqb 2) ts = true.
  Proof.
    induction ts as [|t ts IH]; intros p H Hp; [discriminate|]. cbn [effective existsb] in *.
    unfold known_type in *. destruct (Z.eqb_spec t 1) as [->|N1].
    - cbn in H. cbn. eapply IH; [exact H|lia].
    - destruct (Z.eqb_spec t 2) as [->|N2]; [reflexivity|]. cbn [orb] in H.
      destruct (Z.eqb_spec 2 p); [congruence|]. cbn [orb] in H. rewrite (IH _ H Hp). apply orb_true_r.
  Qed.

  Lemma existsb_eff' : forall ts p, existsb (Z.eqb 2) ts = true -> existsb (Z.eqb 2) (effective p ts) = true.
  Proof.
    induction ts as [|t ts IH]; intros p H; [discriminate|]. cbn [effective existsb] in *.
    apply orb_true_iff in H. destruct H as [H|H].
    - apply Z.eqb_eq in H. subst t. reflexivity.
    - rewrite IH by exact H. apply orb_true_r.
  Qed.

  Lemma existsb_eff_head t ts : known_type t = true ->
    existsb (Z.eqb 2) (effective t (t :: ts)) = existsb (Z.eqb 2) (t :: ts).
  Proof.
    intros Hk. cbn [effective existsb]. rewrite Hk.
    destruct (Z.eqb_spec 2 t) as [E|E]; [reflexivity|]. cbn [orb].
    destruct (existsb (Z.eqb 2) ts) eqn:E2; [now apply existsb_eff'|].
    destruct (existsb (Z.eqb 2) (effective t ts)) eqn:E3; [|reflexivity].
    rewrite (existsb_eff _ _ E3) in E2 by congruence. discriminate.
  Qed.

  Lemma build_types A (m : model F) h t ts : m_elems m = Some h -> el_mtype h = t :: ts -> known_type t = true ->
    build A (model_types (effective t (t :: ts)) m) =
    (m' <- build A m ;; Ok (model_types (effective t (t :: ts)) m')).
  Proof.
    intros Eh Ht Hk. unfold build. cbn [model_types m_nodes m_elems m_bounds m_forces m_set]. rewrite Eh.
    cbn [option_map]. destruct (m_nodes m) as [nh0|]; [|reflexivity].
    cbn [retype el_labels el_mtype]. rewrite (existsb_eff_head t ts Hk), Ht.
    repeat (match goal with
      | |- bind ?x _ = bind (bind ?x _) _ => destruct x; cbn [bind]; try reflexivity
      | |- match ?x with _ => _ end = bind (match ?x with _ => _ end) _ => destruct x; cbn [bind]; try reflexivity
      end).
  Qed.

  Lemma foldM_ext {A B} (f g : B -> A -> res B) l : (forall b x, f b x = g b x) -> forall b, foldM f l b = foldM g l b.
  Proof. intros H. induction l as [|x l IH]; intros b; [reflexivity|]. cbn [foldM]. rewrite H. destruct (g b x); cbn; auto. Qed.

  Lemma run_types B solve (m : model F) fuel h t ts : m_elems m = Some h -> NoDup (el_labels h) ->
    length (el_mtype h) = length (el_labels h) -> el_mtype h = t :: ts -> known_type t = true ->
    run B solve (model_types (effective t (t :: ts)) m) fuel =
    (r <- run B solve m fuel ;; Ok (model_types (effective t (t :: ts)) (fst r), snd r)).
  Proof.
    intros Eh Hn Hl Ht Hk. unfold run. cbn [model_types m_nodes m_elems m_bounds m_forces m_set m_built].
    rewrite Eh. cbn [option_map].
    destruct ((1 <? s_log (m_set m))%Z && _); [reflexivity|].
    destruct ((1 <? s_log (m_set m))%Z && _ && _); [reflexivity|].
    destruct (m_built m) as [u|]; [|reflexivity]. destruct (m_nodes m) as [nh|]; [|reflexivity].
    destruct (m_forces m) as [fh|]; [|reflexivity]. destruct (u_R u) as [|r0 rest]; [reflexivity|].
    set (c := Ctx (n_labels nh) (n_coords nh) h (u_nnodes u) (u_ndof1 u) (s_nstatev (m_set m))).
    change (Ctx (n_labels nh) (n_coords nh) (retype (effective t (t :: ts)) h) (u_nnodes u) (u_ndof1 u)
              (s_nstatev (m_set m))) with (with_types (effective t (t :: ts)) c).
    assert (Hg : (fun V V0 w a => equilibrium (with_types (effective t (t :: ts)) c) V V0 w a) =
                 (fun V V0 w a => equilibrium c V V0 w a)).
    { do 4 (apply functional_extensionality; intros ?). symmetry. apply (equilibrium_types c _ _ _ _ t ts); auto. }
    assert (Hs : (fun U a => stiffness (with_types (effective t (t :: ts)) c) U a) = (fun U a => stiffness c U a)).
    { do 2 (apply functional_extensionality; intros ?). symmetry. eapply (equilibrium_types c _ [] false _ t ts); auto. }
    rewrite (foldM_ext _ (run_step B solve c (m_set m) (e_rows fh) (Z.to_nat (s_nsteps (m_set m))) fuel)).
    - destruct (foldM _ _ _) as [s| |]; reflexivity.
    - intros s k. unfold run_step. rewrite Hg, Hs. reflexivity.
  Qed.
End Types.
