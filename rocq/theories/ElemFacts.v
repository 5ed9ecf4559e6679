(** * Lemmas behind C05 - C07 *)
From Coq Require Import List ZArith Bool Arith Lia.
Import ListNotations.
From Verif Require Import Num Handlers ListFacts EditFacts SpecElem.

(** ** The value found under a label *)
Fixpoint lookup {A} (l : Z) (labels : list Z) (a : list A) : res A :=
  match labels, a with
  | l0 :: labels, x :: a => if Z.eqb l l0 then Ok x else lookup l labels a
  | _, _ => Err IndexError
  end.

Lemma gather_map_S {A} (x : A) a idx : gather (x :: a) (map S idx) = gather a idx.
Proof. induction idx as [|i idx IH]; cbn; auto. rewrite IH. reflexivity. Qed.

Lemma gather_positions_total {A} l labels (a : list A) : length labels <= length a -> exists xs, gather a (positions l labels) = Ok xs.
Proof. intros H. apply gather_ok. intros i Hi. apply positions_lt in Hi. lia. Qed.

Lemma gather0_lookup {A} l labels : forall (a : list A), length labels <= length a ->
  gather0 a (positions l labels) = lookup l labels a.
Proof.
  induction labels as [|l0 labels IH]; intros a H; [destruct a; reflexivity|].
  destruct a as [|x a]; [cbn in H; lia|]. cbn in H. rewrite positions_cons. cbn [lookup].
  destruct (gather_positions_total l labels a ltac:(lia)) as [xs Hx].
  specialize (IH a ltac:(lia)). unfold gather0 in *.
  destruct (Z.eqb l l0).
  - cbn [app gather nth_error]. rewrite gather_map_S, Hx. reflexivity.
  - cbn [app]. rewrite gather_map_S. exact IH.
Qed.

Lemma lookup_ext {A} l labels : forall (a b : list A), length labels <= length a -> length labels <= length b ->
  (forall i, nth_error labels i = Some l -> nth_error a i = nth_error b i) -> lookup l labels a = lookup l labels b.
Proof.
  induction labels as [|l0 labels IH]; intros [|x a] [|y b] Ha Hb H; cbn in *; try lia; auto.
  destruct (Z.eqb_spec l l0) as [->|].
  - specialize (H 0 eq_refl). cbn in H. congruence.
  - apply IH; try lia. intros i Hi. apply (H (S i)). exact Hi.
Qed.

Lemma lookup_all {A} l labels (v : A) : forall a, length labels <= length a -> In l labels ->
  (forall i, nth_error labels i = Some l -> nth_error a i = Some v) -> lookup l labels a = Ok v.
Proof.
  induction labels as [|l0 labels IH]; intros [|x a] Ha Hi H; cbn in *; try lia; try tauto.
  destruct (Z.eqb_spec l l0) as [->|].
  - specialize (H 0 eq_refl). cbn in H. congruence.
  - apply IH; try lia; [destruct Hi; congruence|]. intros i Hx. apply (H (S i)). exact Hx.
Qed.

Lemma lookup_map {A B} (f : A -> B) l labels : forall a, lookup l labels (map f a) = (x <- lookup l labels a ;; Ok (f x)).
Proof. induction labels as [|l0 labels IH]; intros [|x a]; cbn; auto. destruct (Z.eqb l l0); auto. Qed.

Lemma lookup_app_old {A} l labels : forall (a b : list A) l', length labels <= length a -> l <> l' ->
  lookup l (labels ++ [l']) (a ++ b) = lookup l labels a.
Proof.
  induction labels as [|l0 labels IH]; intros a b l' Ha Hl; cbn in *.
  - destruct a as [|x a]; [|cbn]; [destruct b as [|y b]; cbn; auto|]; apply Z.eqb_neq in Hl; rewrite Hl; auto.
  - destruct a as [|x a]; [cbn in Ha; lia|]. cbn in *. destruct (Z.eqb l l0); auto. apply IH; auto; lia.
Qed.

Lemma lookup_app_new {A} l labels : forall (a b : list A) x, length labels = length a -> ~ In l labels ->
  lookup l (labels ++ [l]) (a ++ x :: b) = Ok x.
Proof.
  induction labels as [|l0 labels IH]; intros [|y a] b x Ha Hl; cbn in *; try lia.
  - rewrite Z.eqb_refl. reflexivity.
  - destruct (Z.eqb_spec l l0) as [->|]; [tauto|]. apply IH; auto.
Qed.

Lemma lookup_nth {A} l labels : forall (a : list A) i, NoDup labels -> length labels <= length a -> nth_error labels i = Some l ->
  exists x, nth_error a i = Some x /\ lookup l labels a = Ok x.
Proof.
  intros a i Hn Ha Hi. destruct (nth_error a i) as [x|] eqn:E.
  - exists x. split; auto. apply lookup_all; auto; [eapply nth_error_In; eauto|]. intros j Hj.
    rewrite (NoDup_nth_inj labels j i l); auto.
  - apply nth_error_None in E. assert (i < length labels) by (apply nth_error_Some; congruence). lia.
Qed.

Lemma lookup_unknown {A} l labels : forall (a : list A), ~ In l labels -> lookup l labels a = Err IndexError.
Proof.
  induction labels as [|l0 labels IH]; intros [|x a] H; cbn in *; auto.
  destruct (Z.eqb_spec l l0) as [->|]; [tauto|]. apply IH. tauto.
Qed.

(** ** Writing *)
Lemma put_lookup {A} l l' labels (a a' : list A) v : length labels <= length a ->
  put a (positions l' labels) v = Ok a' ->
  length a' = length a /\
  (l <> l' -> lookup l labels a' = lookup l labels a) /\ (In l' labels -> lookup l' labels a' = Ok v).
Proof.
  intros Ha H. destruct (put_ok _ _ _ _ H) as (H1 & H2 & H3). split; [exact H1|]. split.
  - intros Hl. apply lookup_ext; try lia. intros i Hi. rewrite H3.
    destruct (existsb (Nat.eqb i) (positions l' labels)) eqn:E; auto. exfalso.
    apply existsb_exists in E. destruct E as (j & Hj & E). apply Nat.eqb_eq in E. subst j. apply positions_In in Hj. congruence.
  - intros Hi. apply lookup_all; auto; [lia|]. intros i Hx. rewrite H3.
    replace (existsb (Nat.eqb i) (positions l' labels)) with true; auto. symmetry. apply existsb_exists. exists i.
    split; [apply positions_In; auto|apply Nat.eqb_refl].
Qed.

Lemma put_total {A} l labels (a : list A) v : length labels <= length a -> exists a', put a (positions l labels) v = Ok a'.
Proof.
  intros H. unfold put. replace (forallb _ _) with true; [eauto|]. symmetry. apply forallb_forall. intros i Hi.
  apply positions_lt in Hi. apply Nat.ltb_lt. lia.
Qed.

Lemma put_all {A} labels (v : A) ls : forall a a', length labels <= length a ->
  foldM (fun a label => put a (positions label labels) v) ls a = Ok a' ->
  length a' = length a /\
  forall l, (~ In l ls -> lookup l labels a' = lookup l labels a) /\ (In l ls -> In l labels -> lookup l labels a' = Ok v).
Proof.
  induction ls as [|l0 ls IH]; intros a a' Ha H; cbn [foldM] in H.
  - injection H as <-. split; auto. intros l. split; auto. intros [].
  - mstep H. destruct (put_ok _ _ _ _ Ha0) as (L1 & _).
    destruct (IH a0 a' ltac:(lia) H) as [L2 H2]. split; [lia|]. intros l. destruct (H2 l) as [H3 H4].
    destruct (put_lookup l l0 labels a a0 v Ha Ha0) as (_ & P1 & P2). split.
    + intros Hn. rewrite H3 by (intros X; apply Hn; right; auto). apply P1. intros ->. apply Hn. left. auto.
    + intros Hi Hl. destruct (in_dec Z.eq_dec l ls) as [Hd|Hd]; [auto|].
      rewrite H3 by auto. destruct Hi as [->|Hi]; [auto|tauto].
Qed.

Lemma put_all_total {A} labels (v : A) ls : forall a, length labels <= length a ->
  exists a', foldM (fun a label => put a (positions label labels) v) ls a = Ok a'.
Proof.
  induction ls as [|l0 ls IH]; intros a Ha; cbn [foldM]; [eauto|].
  destruct (put_total l0 labels a v Ha) as [a1 E]. rewrite E. cbn [bind]. apply IH.
  destruct (put_ok _ _ _ _ E) as (-> & _). exact Ha.
Qed.

Section Elem.
  Context {F : Type} `{NF : Num F}.

  (** The row stored by an assignment. *)
  Definition assigned (t : table F) (r : list (pynum F)) : list F :=
    if length r =? t_width t then map (as_stored (t_int t)) r
    else repeat (as_stored (t_int t) (hd (PF f0) r)) (t_width t).

  Lemma tab_assign_put (t t' : table F) idx r : tab_assign t idx r = Ok t' ->
    exists rows, put (t_rows t) idx (assigned t r) = Ok rows /\ t' = Tab (t_int t) (t_width t) rows.
  Proof.
    unfold tab_assign, assigned. destruct (length r =? t_width t).
    - intros H. mstep H. injection H as <-. eexists. split; [exact Ha|reflexivity].
    - destruct r as [|x [|y r]]; cbn [map]; try discriminate. intros H. mstep H. injection H as <-. eexists. split; [exact Ha|reflexivity].
  Qed.

  Lemma assigned_length (t : table F) r idx t' : tab_assign t idx r = Ok t' -> length (assigned t r) = t_width t.
  Proof.
    unfold assigned. intros _. destruct (Nat.eqb_spec (length r) (t_width t)); [rewrite map_length; auto|apply repeat_length].
  Qed.

  Definition tab_ok (n : nat) (t : table F) : Prop := length (t_rows t) = n /\ Forall (fun r => length r = t_width t) (t_rows t).

  Lemma put_Forall {A} (P : A -> Prop) a idx v a' : put a idx v = Ok a' -> Forall P a -> P v -> Forall P a'.
  Proof.
    intros H HF Hv. destruct (put_ok _ _ _ _ H) as (H1 & H2 & H3). rewrite Forall_forall in *. intros x Hx.
    apply In_nth_error in Hx. destruct Hx as [i Hi]. rewrite H3 in Hi. destruct (existsb _ _); [congruence|].
    apply HF. eapply nth_error_In; eauto.
  Qed.

  Lemma assign_all labels ps : forall (t t' : table F), length labels <= length (t_rows t) ->
    foldM (fun t p => tab_assign t (positions (fst p) labels) (snd p)) ps t = Ok t' ->
    t_int t' = t_int t /\ t_width t' = t_width t /\ length (t_rows t') = length (t_rows t) /\
    (tab_ok (length labels) t -> tab_ok (length labels) t') /\
    forall l, (~ In l (map fst ps) -> lookup l labels (t_rows t') = lookup l labels (t_rows t)) /\
      (forall r, In (l, r) ps -> (forall r', In (l, r') ps -> r' = r) -> In l labels ->
         lookup l labels (t_rows t') = Ok (assigned t r)).
  Proof.
    induction ps as [|[l0 r0] ps IH]; intros t t' Ht H; cbn [foldM fst snd] in H.
    - injection H as <-. do 3 (split; auto). split; auto. intros l. split; auto. intros r [].
    - mstep H. pose proof (assigned_length _ _ _ _ Ha) as Hl. destruct (tab_assign_put _ _ _ _ Ha) as (rows & Hp & ->).
      destruct (put_ok _ _ _ _ Hp) as (L1 & _).
      assert (Hx : length labels <= length (t_rows (Tab (t_int t) (t_width t) rows))) by (cbn; lia).
      destruct (IH _ t' Hx H) as (I1 & I2 & I3 & Itab & I4). cbn [t_int t_width t_rows] in I1, I2, I3, I4.
      split; [exact I1|]. split; [exact I2|]. split; [lia|].
      split. { intros [T1 T2]. apply Itab. split; cbn; [lia|]. eapply put_Forall; eauto. }
      intros l. destruct (I4 l) as [H3 H4].
      destruct (put_lookup l l0 labels (t_rows t) rows _ Ht Hp) as (_ & P1 & P2). split.
      + cbn [map fst]. intros Hn. rewrite H3 by (intros X; apply Hn; right; auto). apply P1. intros ->. apply Hn. left. auto.
      + intros r Hi Hu Hl'. destruct (in_dec Z.eq_dec l (map fst ps)) as [Hd|Hd].
        * apply in_map_iff in Hd. destruct Hd as ([l1 r1] & E & Hd). cbn in E. subst l1.
          assert (r1 = r) by (apply Hu; right; auto). subst r1.
          rewrite (H4 r Hd); auto. intros r' Hr'. apply Hu. right. auto.
        * rewrite H3 by auto. destruct Hi as [E|Hi]; [|exfalso; apply Hd; apply in_map with (f := fst) in Hi; exact Hi].
          injection E as -> ->. apply P2. exact Hl'.
  Qed.

  Lemma assign_all_total labels ps : forall (t : table F), length labels <= length (t_rows t) ->
    (forall l r, In (l, r) ps -> length r = t_width t \/ length r = 1) ->
    exists t', foldM (fun t p => tab_assign t (positions (fst p) labels) (snd p)) ps t = Ok t'.
  Proof.
    induction ps as [|[l0 r0] ps IH]; intros t Ht H; cbn [foldM fst snd]; [eauto|].
    assert (E : exists rows, length rows = length (t_rows t) /\ tab_assign t (positions l0 labels) r0 = Ok (Tab (t_int t) (t_width t) rows)).
    { unfold tab_assign. destruct (Nat.eqb_spec (length r0) (t_width t)).
      - destruct (put_total l0 labels (t_rows t) (map (store (t_int t)) r0) Ht) as [a E]. rewrite E. cbn [bind].
        exists a. split; auto. destruct (put_ok _ _ _ _ E) as (-> & _). reflexivity.
      - destruct (H l0 r0 (or_introl eq_refl)) as [|Hl]; [congruence|]. destruct r0 as [|x [|y r0]]; cbn in Hl; try lia.
        cbn [map]. destruct (put_total l0 labels (t_rows t) (repeat (store (t_int t) x) (t_width t)) Ht) as [a E]. rewrite E. cbn [bind].
        exists a. split; auto. destruct (put_ok _ _ _ _ E) as (-> & _). reflexivity. }
    destruct E as (rows & Hr & ->). cbn [bind]. apply IH; cbn; [lia|]. intros l r Hi. apply (H l r). right. auto.
  Qed.

  (** ** The getters as lookups *)
  Lemma getters (h : elemH F) : arrays_ok h -> forall l,
    get_nodes h l = lookup l (el_labels h) (el_conns h) /\
    get_element_type h l = lookup l (el_labels h) (el_etype h) /\
    get_material_type h l = lookup l (el_labels h) (el_mtype h) /\
    get_material_properties h l = lookup l (el_labels h) (t_rows (el_mat h)) /\
    get_geometric_properties h l = lookup l (el_labels h) (t_rows (el_geo h)).
  Proof.
    intros (H1 & H2 & H3 & H4 & H5 & _) l. unfold get_nodes, get_element_type, get_material_type, get_material_properties, get_geometric_properties.
    repeat split; apply gather0_lookup; lia.
  Qed.

  (** *** add_element *)
  Lemma add_ok (h : elemH F) E h' : arrays_ok h -> add_element (Some h) E = Ok (Some h') -> arrays_ok h'.
  Proof.
    intros (H1 & H2 & H3 & H4 & H5 & H6 & H7) H. cbn [add_element] in H. mstep H. mstep H. injection H as <-.
    unfold tab_vstack in *. destruct (Nat.eqb_spec (length (l_mat E)) (t_width (el_mat h))) as [W1|]; [|discriminate].
    destruct (Nat.eqb_spec (length (l_geo E)) (t_width (el_geo h))) as [W2|]; [|discriminate].
    injection Ha as <-. injection Ha0 as <-. unfold arrays_ok. cbn [el_labels el_conns el_etype el_mtype el_mat el_geo t_rows t_width].
    rewrite !app_length. cbn [length]. do 5 (split; [lia|]).
    split; apply Forall_app; split; auto; constructor; auto; rewrite map_length; auto.
  Qed.

  Lemma add_first_ok E (h' : elemH F) : add_element None E = Ok (Some h') -> arrays_ok h'.
  Proof.
    cbn. intros H. injection H as <-. unfold arrays_ok. cbn. do 5 (split; auto). split; repeat constructor; apply map_length.
  Qed.

  Lemma add_get (h : elemH F) E h' : arrays_ok h -> ~ In (l_label E) (el_labels h) ->
    add_element (Some h) E = Ok (Some h') ->
    get_nodes h' (l_label E) = Ok (l_conn E) /\
    get_element_type h' (l_label E) = Ok (l_etype E) /\
    get_material_type h' (l_label E) = Ok (l_mtype E) /\
    get_material_properties h' (l_label E) = Ok (map pyval (l_mat E)) /\
    get_geometric_properties h' (l_label E) = Ok (map pyval (l_geo E)).
  Proof.
    intros Hok Hf H. pose proof (add_ok _ _ _ Hok H) as Hok'.
    destruct (getters h' Hok' (l_label E)) as (-> & -> & -> & -> & ->).
    destruct Hok as (H1 & H2 & H3 & H4 & H5 & H6 & H7). cbn [add_element] in H. mstep H. mstep H. injection H as <-.
    unfold tab_vstack in *. destruct (length (l_mat E) =? t_width (el_mat h)); [|discriminate].
    destruct (length (l_geo E) =? t_width (el_geo h)); [|discriminate]. injection Ha as <-. injection Ha0 as <-.
    cbn [el_labels el_conns el_etype el_mtype el_mat el_geo t_rows]. repeat split; apply lookup_app_new; auto; lia.
  Qed.

  Lemma add_first_get E (h' : elemH F) : add_element None E = Ok (Some h') ->
    get_nodes h' (l_label E) = Ok (l_conn E) /\
    get_element_type h' (l_label E) = Ok (l_etype E) /\
    get_material_type h' (l_label E) = Ok (l_mtype E) /\
    get_material_properties h' (l_label E) = Ok (map pyval (l_mat E)) /\
    get_geometric_properties h' (l_label E) = Ok (map pyval (l_geo E)).
  Proof.
    intros H. pose proof (add_first_ok _ _ H) as Hok'.
    destruct (getters h' Hok' (l_label E)) as (-> & -> & -> & -> & ->). cbn in H. injection H as <-.
    cbn. rewrite Z.eqb_refl. auto.
  Qed.

  Lemma add_others (h : elemH F) E h' : arrays_ok h -> add_element (Some h) E = Ok (Some h') ->
    forall l, l <> l_label E ->
    get_nodes h' l = get_nodes h l /\ get_element_type h' l = get_element_type h l /\
    get_material_type h' l = get_material_type h l /\
    get_material_properties h' l = get_material_properties h l /\
    get_geometric_properties h' l = get_geometric_properties h l.
  Proof.
    intros Hok H l Hl. pose proof (add_ok _ _ _ Hok H) as Hok'.
    destruct (getters h' Hok' l) as (-> & -> & -> & -> & ->). destruct (getters h Hok l) as (-> & -> & -> & -> & ->).
    destruct Hok as (H1 & H2 & H3 & H4 & H5 & H6 & H7). cbn [add_element] in H. mstep H. mstep H. injection H as <-.
    unfold tab_vstack in *. destruct (length (l_mat E) =? t_width (el_mat h)); [|discriminate].
    destruct (length (l_geo E) =? t_width (el_geo h)); [|discriminate]. injection Ha as <-. injection Ha0 as <-.
    cbn [el_labels el_conns el_etype el_mtype el_mat el_geo t_rows]. repeat split; apply lookup_app_old; auto; lia.
  Qed.

  Lemma add_total (h : elemH F) E :
    (length (l_mat E) = t_width (el_mat h) /\ length (l_geo E) = t_width (el_geo h)) <->
    exists h', add_element (Some h) E = Ok (Some h').
  Proof.
    cbn [add_element]. unfold tab_vstack. split.
    - intros [-> ->]. rewrite !Nat.eqb_refl. cbn [bind]. eauto.
    - intros [h' H]. destruct (Nat.eqb_spec (length (l_mat E)) (t_width (el_mat h))); [|discriminate].
      destruct (Nat.eqb_spec (length (l_geo E)) (t_width (el_geo h))); [auto|discriminate].
  Qed.

  (** *** assign_geometry, assign_geometries *)
  Lemma foldM_map {A B S} (f : S -> B -> res S) (g : A -> B) l s :
    foldM (fun s a => f s (g a)) l s = foldM f (map g l) s.
  Proof. revert s. induction l as [|a l IH]; intros s; cbn; auto. destruct (f s (g a)); cbn; auto. Qed.

  Lemma assign_geometries_spec (h h' : elemH F) ls gs : arrays_ok h -> assign_geometries (Some h) ls gs = Ok (Some h') ->
    arrays_ok h' /\ el_labels h' = el_labels h /\ t_int (el_geo h') = t_int (el_geo h) /\ t_width (el_geo h') = t_width (el_geo h) /\
    el_mat h' = el_mat h /\
    forall l, get_nodes h' l = get_nodes h l /\ get_element_type h' l = get_element_type h l /\
    get_material_type h' l = get_material_type h l /\ get_material_properties h' l = get_material_properties h l /\
    (~ In l (map fst (combine (lab_list ls h) gs)) -> get_geometric_properties h' l = get_geometric_properties h l) /\
    (forall g, In (l, g) (combine (lab_list ls h) gs) -> (forall g', In (l, g') (combine (lab_list ls h) gs) -> g' = g) -> In l (el_labels h) ->
       get_geometric_properties h' l = Ok (assigned (el_geo h) g)).
  Proof.
    intros Hok H. pose proof Hok as (H1 & H2 & H3 & H4 & H5 & H6 & H7).
    cbn [assign_geometries] in H. mstep H. injection H as <-.
    assert (Hx : length (el_labels h) <= length (t_rows (el_geo h))) by lia.
    destruct (assign_all (el_labels h) _ _ a Hx Ha) as (A1 & A2 & A3 & A5 & A4).
    assert (Hok' : arrays_ok (ElemH (el_labels h) (el_conns h) (el_etype h) (el_mtype h) (el_mat h) a)).
    { destruct (A5 (conj H5 H7)) as [B1 B2]. unfold arrays_ok. cbn. auto 10. }
    split; [exact Hok'|]. cbn [el_labels el_geo el_mat]. split; [reflexivity|]. split; [exact A1|]. split; [exact A2|]. split; [reflexivity|]. intros l.
    destruct (getters _ Hok' l) as (-> & -> & -> & -> & ->). destruct (getters h Hok l) as (-> & -> & -> & -> & ->).
    cbn [el_labels el_conns el_etype el_mtype el_mat el_geo]. destruct (A4 l) as [B1 B2]. repeat split; auto.
  Qed.

  Lemma combine_same {A B} (l : list A) (g : B) : combine l (repeat g (length l)) = map (fun a => (a, g)) l.
  Proof. induction l as [|a l IH]; cbn; congruence. Qed.

  Lemma assign_geometry_as (h : elemH F) ls g :
    assign_geometry (Some h) ls g = assign_geometries (Some h) ls (repeat g (length (lab_list ls h))).
  Proof.
    cbn [assign_geometry assign_geometries]. rewrite combine_same.
    rewrite <- (foldM_map (fun t p => tab_assign t (positions (fst p) (el_labels h)) (snd p)) (fun a => (a, g))). reflexivity.
  Qed.

  Lemma assign_geometry_spec (h h' : elemH F) ls g : arrays_ok h -> assign_geometry (Some h) ls g = Ok (Some h') ->
    arrays_ok h' /\ el_labels h' = el_labels h /\ t_int (el_geo h') = t_int (el_geo h) /\ t_width (el_geo h') = t_width (el_geo h) /\
    el_mat h' = el_mat h /\
    forall l, get_nodes h' l = get_nodes h l /\ get_element_type h' l = get_element_type h l /\
    get_material_type h' l = get_material_type h l /\ get_material_properties h' l = get_material_properties h l /\
    (~ In l (lab_list ls h) -> get_geometric_properties h' l = get_geometric_properties h l) /\
    (In l (lab_list ls h) -> In l (el_labels h) -> get_geometric_properties h' l = Ok (assigned (el_geo h) g)).
  Proof.
    intros Hok H. rewrite assign_geometry_as in H. destruct (assign_geometries_spec h h' _ _ Hok H) as (A1 & A2 & A3 & A3' & A3'' & A4).
    rewrite combine_same in A4. do 5 (split; auto). intros l. destruct (A4 l) as (B1 & B2 & B3 & B4 & B5 & B6). do 4 (split; auto). split.
    - intros Hn. apply B5. rewrite map_map. cbn [fst]. rewrite map_id. exact Hn.
    - intros Hi Hl. apply B6; auto.
      + apply in_map_iff. exists l. auto.
      + intros g' Hg. apply in_map_iff in Hg. destruct Hg as (x & E & _). congruence.
  Qed.

  Lemma assign_geometries_total (h : elemH F) ls gs : arrays_ok h ->
    (forall g, In g gs -> length g = t_width (el_geo h)) -> exists h', assign_geometries (Some h) ls gs = Ok (Some h').
  Proof.
    intros (H1 & H2 & H3 & H4 & H5 & H6 & H7) Hg. cbn [assign_geometries].
    destruct (assign_all_total (el_labels h) (combine (lab_list ls h) gs) (el_geo h)) as [t E]; [lia| |rewrite E; cbn [bind]; eauto].
    intros l r Hi. left. apply Hg. eapply in_combine_r; eauto.
  Qed.

  (** *** assign_etype, assign_mtype *)
  Lemma assign_mtype_spec (h h' : elemH F) ls t : arrays_ok h -> assign_mtype (Some h) ls t = Ok (Some h') ->
    arrays_ok h' /\ el_labels h' = el_labels h /\ el_mat h' = el_mat h /\ el_geo h' = el_geo h /\
    forall l, get_nodes h' l = get_nodes h l /\ get_element_type h' l = get_element_type h l /\
    get_material_properties h' l = get_material_properties h l /\ get_geometric_properties h' l = get_geometric_properties h l /\
    (~ In l (lab_list ls h) -> get_material_type h' l = get_material_type h l) /\
    (In l (lab_list ls h) -> In l (el_labels h) -> get_material_type h' l = Ok t).
  Proof.
    intros Hok H. pose proof Hok as (H1 & H2 & H3 & H4 & H5 & H6 & H7).
    cbn [assign_mtype] in H. mstep H. injection H as <-.
    assert (Hy : length (el_labels h) <= length (el_mtype h)) by lia.
    destruct (put_all _ _ _ _ _ Hy Ha) as (A3 & A4).
    assert (Hok' : arrays_ok (ElemH (el_labels h) (el_conns h) (el_etype h) a (el_mat h) (el_geo h))).
    { unfold arrays_ok. cbn. rewrite A3. auto 10. }
    split; [exact Hok'|]. do 3 (split; [reflexivity|]). intros l.
    destruct (getters _ Hok' l) as (-> & -> & -> & -> & ->). destruct (getters h Hok l) as (-> & -> & -> & -> & ->).
    cbn [el_labels el_conns el_etype el_mtype el_mat el_geo]. destruct (A4 l) as [B1 B2]. repeat split; auto.
  Qed.

  Lemma assign_etype_spec (h h' : elemH F) ls t : arrays_ok h -> assign_etype (Some h) ls t = Ok (Some h') ->
    arrays_ok h' /\ el_labels h' = el_labels h /\ el_mat h' = el_mat h /\ el_geo h' = el_geo h /\
    forall l, get_nodes h' l = get_nodes h l /\ get_material_type h' l = get_material_type h l /\
    get_material_properties h' l = get_material_properties h l /\ get_geometric_properties h' l = get_geometric_properties h l /\
    (~ In l (lab_list ls h) -> get_element_type h' l = get_element_type h l) /\
    (In l (lab_list ls h) -> In l (el_labels h) -> get_element_type h' l = Ok t).
  Proof.
    intros Hok H. pose proof Hok as (H1 & H2 & H3 & H4 & H5 & H6 & H7).
    cbn [assign_etype] in H. mstep H. injection H as <-.
    assert (Hy : length (el_labels h) <= length (el_etype h)) by lia.
    destruct (put_all _ _ _ _ _ Hy Ha) as (A3 & A4).
    assert (Hok' : arrays_ok (ElemH (el_labels h) (el_conns h) a (el_mtype h) (el_mat h) (el_geo h))).
    { unfold arrays_ok. cbn. rewrite A3. auto 10. }
    split; [exact Hok'|]. do 3 (split; [reflexivity|]). intros l.
    destruct (getters _ Hok' l) as (-> & -> & -> & -> & ->). destruct (getters h Hok l) as (-> & -> & -> & -> & ->).
    cbn [el_labels el_conns el_etype el_mtype el_mat el_geo]. destruct (A4 l) as [B1 B2]. repeat split; auto.
  Qed.

  Lemma assign_types_total (h : elemH F) ls t : arrays_ok h ->
    (exists h', assign_mtype (Some h) ls t = Ok (Some h')) /\ (exists h', assign_etype (Some h) ls t = Ok (Some h')).
  Proof.
    intros (H1 & H2 & H3 & _). cbn [assign_mtype assign_etype]. split.
    - destruct (put_all_total (el_labels h) t (lab_list ls h) (el_mtype h)) as [a E]; [lia|]. rewrite E. cbn [bind]. eauto.
    - destruct (put_all_total (el_labels h) t (lab_list ls h) (el_etype h)) as [a E]; [lia|]. rewrite E. cbn [bind]. eauto.
  Qed.

  (** *** assign_material *)
  Lemma material_loop labels mp (mt : option Z) ls : forall (t : table F) (ty : list Z) st,
    foldM (fun (st : table F * list Z) label =>
       let idx := positions label labels in
       mat' <- tab_assign (fst st) idx mp ;;
       match mt with
       | None => Ok (mat', snd st)
       | Some t => mt' <- put (snd st) idx t ;; Ok (mat', mt')
       end) ls (t, ty) = Ok st ->
    foldM (fun t p => tab_assign t (positions (fst p) labels) (snd p)) (map (fun l => (l, mp)) ls) t = Ok (fst st) /\
    match mt with
    | None => snd st = ty
    | Some v => foldM (fun a label => put a (positions label labels) v) ls ty = Ok (snd st)
    end.
  Proof.
    induction ls as [|l ls IH]; intros t ty st H; cbn [foldM map fst snd] in *.
    - injection H as <-. cbn. split; auto. destruct mt; auto.
    - mstep H. cbn zeta in Ha. mstep Ha. rewrite Ha0. cbn [bind]. destruct mt as [v|].
      + mstep Ha. injection Ha as <-. rewrite Ha1. cbn [bind]. apply IH in H. exact H.
      + injection Ha as <-. apply IH in H. exact H.
  Qed.

  Lemma material_loop_total labels mp (mt : option Z) ls : forall (t : table F) (ty : list Z),
    length labels <= length (t_rows t) -> length labels <= length ty -> length mp = t_width t -> exists st,
    foldM (fun (st : table F * list Z) label =>
       let idx := positions label labels in
       mat' <- tab_assign (fst st) idx mp ;;
       match mt with
       | None => Ok (mat', snd st)
       | Some t => mt' <- put (snd st) idx t ;; Ok (mat', mt')
       end) ls (t, ty) = Ok st.
  Proof.
    induction ls as [|l ls IH]; intros t ty H1 H2 H3; cbn [foldM fst snd]; [eauto|].
    cbn zeta. unfold tab_assign at 1. rewrite (proj2 (Nat.eqb_eq _ _) H3).
    destruct (put_total l labels (t_rows t) (map (store (t_int t)) mp) H1) as [rows E]. rewrite E. cbn [bind].
    destruct (put_ok _ _ _ _ E) as (L & _).
    destruct mt as [v|].
    - destruct (put_total l labels ty v H2) as [ty' E']. rewrite E'. cbn [bind]. destruct (put_ok _ _ _ _ E') as (L' & _).
      apply IH; cbn; try lia.
    - cbn [bind]. apply IH; cbn; try lia.
  Qed.

  Lemma assign_material_spec (h h' : elemH F) ls mp mt : arrays_ok h -> assign_material (Some h) ls mp mt = Ok (Some h') ->
    let w' := Nat.max (t_width (el_mat h)) (length mp) in
    arrays_ok h' /\ el_labels h' = el_labels h /\ el_geo h' = el_geo h /\
    t_width (el_mat h') = w' /\ t_int (el_mat h') = (t_int (el_mat h) && (w' =? t_width (el_mat h)))%bool /\
    forall l, get_nodes h' l = get_nodes h l /\ get_element_type h' l = get_element_type h l /\
    get_geometric_properties h' l = get_geometric_properties h l /\
    (~ In l (lab_list ls h) ->
       get_material_properties h' l = (r <- get_material_properties h l ;; Ok (pad w' r)) /\
       get_material_type h' l = get_material_type h l) /\
    (In l (lab_list ls h) -> In l (el_labels h) ->
       get_material_properties h' l = Ok (map (as_stored (t_int (el_mat h'))) (mp ++ repeat (PF f0) (w' - length mp))) /\
       get_material_type h' l = match mt with None => get_material_type h l | Some t => Ok t end).
  Proof.
    intros Hok H w'. pose proof Hok as (H1 & H2 & H3 & H4 & H5 & H6 & H7).
    cbn [assign_material] in H. cbn zeta in H. mstep H. injection H as <-. destruct a as [mat' mt']. cbn [fst snd] in *.
    set (w := t_width (el_mat h)) in *. set (k := length mp) in *.
    set (mat0 := if w <? k then tab_extend (el_mat h) (k - w) else el_mat h) in *.
    set (mp0 := if k <? w then mp ++ repeat (PF f0) (w - k) else mp) in *.
    destruct (material_loop _ _ _ _ _ _ _ Ha) as [M1 M2]. cbn [fst snd] in M1, M2.
    assert (R0 : t_rows mat0 = map (pad w') (t_rows (el_mat h))).
    { unfold mat0. destruct (Nat.ltb_spec w k).
      - cbn [tab_extend t_rows]. apply map_ext_in. intros r Hr. unfold pad. rewrite Forall_forall in H6. rewrite (H6 r Hr). unfold w'. fold k w.
        rewrite Nat.max_r by lia. reflexivity.
      - rewrite <- (map_id (t_rows (el_mat h))) at 1. apply map_ext_in. intros r Hr. unfold pad. rewrite Forall_forall in H6. rewrite (H6 r Hr). unfold w'. fold k w.
        rewrite Nat.max_l by lia. rewrite Nat.sub_diag. cbn. rewrite app_nil_r. reflexivity. }
    assert (W0 : t_width mat0 = w').
    { unfold mat0, w'. destruct (Nat.ltb_spec w k); cbn [tab_extend t_width]; fold w k; lia. }
    assert (I0 : t_int mat0 = (t_int (el_mat h) && (w' =? w))%bool).
    { unfold mat0, w'. fold w k. destruct (Nat.ltb_spec w k); cbn [tab_extend t_int].
      - rewrite Nat.max_r by lia. destruct (Nat.eqb_spec k w); [lia|]. rewrite andb_false_r. reflexivity.
      - rewrite Nat.max_l by lia. rewrite Nat.eqb_refl, andb_true_r. reflexivity. }
    assert (L0 : length (t_rows mat0) = length (el_labels h)) by (rewrite R0, map_length; auto).
    assert (Hx : length (el_labels h) <= length (t_rows mat0)) by lia.
    destruct (assign_all _ _ _ _ Hx M1) as (A1 & A2 & A3 & A5 & A4).
    assert (T0 : tab_ok (length (el_labels h)) mat0).
    { split; auto. rewrite R0, W0. apply Forall_forall. intros r Hr. apply in_map_iff in Hr. destruct Hr as (r0 & <- & Hr).
      rewrite Forall_forall in H6. unfold pad. rewrite app_length, repeat_length, (H6 r0 Hr). unfold w'. fold w. lia. }
    assert (HM : length mt' = length (el_mtype h) /\
      forall l, (~ In l (lab_list ls h) -> lookup l (el_labels h) mt' = lookup l (el_labels h) (el_mtype h)) /\
        (In l (lab_list ls h) -> In l (el_labels h) -> lookup l (el_labels h) mt' = match mt with None => lookup l (el_labels h) (el_mtype h) | Some t => Ok t end)).
    { destruct mt as [v|]; [|subst mt'; auto]. assert (Hy : length (el_labels h) <= length (el_mtype h)) by lia.
      exact (put_all _ _ _ _ _ Hy M2). }
    destruct HM as [LM HM].
    assert (Hok' : arrays_ok (ElemH (el_labels h) (el_conns h) (el_etype h) mt' mat' (el_geo h))).
    { destruct (A5 T0) as [B1 B2]. unfold arrays_ok. cbn. rewrite LM. auto 10. }
    split; [exact Hok'|]. cbn [el_labels el_geo el_mat]. split; [reflexivity|]. split; [reflexivity|]. split; [congruence|]. split; [congruence|].
    intros l. destruct (getters _ Hok' l) as (-> & -> & -> & -> & ->). destruct (getters h Hok l) as (-> & -> & -> & -> & ->).
    cbn [el_labels el_conns el_etype el_mtype el_mat el_geo]. destruct (A4 l) as [B1 B2]. destruct (HM l) as [C1 C2].
    do 3 (split; [reflexivity|]). split.
    - intros Hn. split; [|auto]. rewrite B1, R0, lookup_map; [reflexivity|]. rewrite map_map. cbn [fst]. rewrite map_id. exact Hn.
    - intros Hi Hl. split; [|auto]. rewrite (B2 mp0); auto.
      + unfold assigned. rewrite A1, W0. unfold mp0, w'. fold w k. destruct (Nat.ltb_spec k w).
        * rewrite app_length, repeat_length. fold k. rewrite Nat.max_l by lia. replace (k + (w - k)) with w by lia. rewrite Nat.eqb_refl. reflexivity.
        * fold k. rewrite Nat.max_r by lia. rewrite Nat.eqb_refl, Nat.sub_diag. cbn. rewrite app_nil_r. reflexivity.
      + apply in_map_iff. exists l. auto.
      + intros g' Hg. apply in_map_iff in Hg. destruct Hg as (x & E & _). congruence.
  Qed.

  Lemma assign_material_total (h : elemH F) ls mp mt : arrays_ok h -> exists h', assign_material (Some h) ls mp mt = Ok (Some h').
  Proof.
    intros (H1 & H2 & H3 & H4 & H5 & H6 & H7). cbn [assign_material]. cbn zeta.
    set (w := t_width (el_mat h)). set (k := length mp).
    destruct (material_loop_total (el_labels h) (if k <? w then mp ++ repeat (PF f0) (w - k) else mp) mt (lab_list ls h)
                (if w <? k then tab_extend (el_mat h) (k - w) else el_mat h) (el_mtype h)) as [st E].
    - destruct (w <? k); cbn [tab_extend t_rows]; rewrite ?map_length; lia.
    - lia.
    - destruct (Nat.ltb_spec k w), (Nat.ltb_spec w k); cbn [tab_extend t_width]; try rewrite app_length, repeat_length; fold w k; lia.
    - cbn zeta in E. rewrite E. cbn [bind]. eauto.
  Qed.

  (** *** del_element *)
  Lemma lookup_filter {A} l label (rows : list (Z * A)) : l <> label ->
    let rows' := filter (fun p => negb (Z.eqb label (fst p))) rows in
    lookup l (map fst rows') (map snd rows') = lookup l (map fst rows) (map snd rows).
  Proof.
    intros Hl. induction rows as [|[a x] rows IH]; cbn in *; auto.
    destruct (Z.eqb_spec label a) as [->|]; cbn.
    - apply Z.eqb_neq in Hl. rewrite Hl. exact IH.
    - rewrite IH. reflexivity.
  Qed.

  Lemma combine_split2 {A B} (la : list A) : forall lb : list B, length lb = length la ->
    map fst (combine la lb) = la /\ map snd (combine la lb) = lb.
  Proof.
    induction la as [|a la IH]; intros [|b lb] H; cbn in *; try lia; auto.
    destruct (IH lb) as [-> ->]; auto.
  Qed.

  Lemma lookup_delete {A} l label labels (a : list A) : length a = length labels -> l <> label ->
    lookup l (delete_at labels (positions label labels)) (delete_at a (positions label labels)) = lookup l labels a.
  Proof.
    intros Ha Hl. destruct (combine_split2 labels a Ha) as [E1 E2]. set (rows := combine labels a) in *.
    rewrite <- E1, <- E2. rewrite !delete_at_map, delete_rows. apply lookup_filter. exact Hl.
  Qed.

  Lemma delete_labels label labels : delete_at labels (positions label labels) = filter (fun l => negb (Z.eqb label l)) labels.
  Proof.
    apply delete_at_filter. intros i x Hx. rewrite negb_involutive. destruct (Z.eqb_spec label x) as [E|E].
    - apply existsb_exists. exists i. split; [|apply Nat.eqb_refl]. apply positions_In. congruence.
    - destruct (existsb _ _) eqn:Ee; auto. apply existsb_exists in Ee. destruct Ee as (j & Hj & Ej). apply Nat.eqb_eq in Ej. subst j.
      apply positions_In in Hj. congruence.
  Qed.

  Lemma delete_same_length {A} (a : list A) {B} (b : list B) idx : length a = length b -> length (delete_at a idx) = length (delete_at b idx).
  Proof.
    intros H. destruct (combine_split2 a b (eq_sym H)) as [E1 E2]. set (rows := combine a b) in *. rewrite <- E1, <- E2, !delete_at_map, !map_length. reflexivity.
  Qed.

  Lemma del_keeps (h h' : elemH F) label : arrays_ok h -> del_element (Some h) label = Ok (Some h') ->
    el_labels h' = filter (fun l => negb (Z.eqb label l)) (el_labels h) /\
    forall l, l <> label ->
    get_nodes h' l = get_nodes h l /\ get_material_properties h' l = get_material_properties h l /\
    get_geometric_properties h' l = get_geometric_properties h l.
  Proof.
    intros Hok H. pose proof Hok as (H1 & H2 & H3 & H4 & H5 & H6 & H7). cbn [del_element] in H. cbn zeta in H. injection H as <-.
    cbn [el_labels]. split; [apply delete_labels|]. intros l Hl. destruct (getters h Hok l) as (-> & _ & _ & -> & ->).
    unfold get_nodes, get_material_properties, get_geometric_properties. cbn [el_labels el_conns el_mat el_geo tab_delete t_rows].
    repeat split; (rewrite gather0_lookup; [apply lookup_delete; auto|apply Nat.eq_le_incl, delete_same_length; auto]).
  Qed.

  Lemma split_at_label label labels d : nth_error labels d = Some label -> NoDup labels ->
    exists pre post, labels = pre ++ label :: post /\ length pre = d /\ filter (fun l => negb (Z.eqb label l)) labels = pre ++ post.
  Proof.
    intros Hd Hn. destruct (nth_error_split _ _ Hd) as (pre & post & -> & Hl). exists pre, post. do 2 (split; auto).
    rewrite filter_app. cbn [filter]. rewrite Z.eqb_refl. cbn [negb]. apply NoDup_remove_2 in Hn.
    f_equal; apply filter_all; intros x Hx; apply negb_true_iff, Z.eqb_neq; intros ->; apply Hn; apply in_app_iff; auto.
  Qed.

  Lemma del_types (h h' : elemH F) label d : arrays_ok h -> NoDup (el_labels h) -> nth_error (el_labels h) d = Some label ->
    del_element (Some h) label = Ok (Some h') ->
    forall i l, nth_error (el_labels h) i = Some l ->
    (i < d -> get_element_type h' l = get_element_type h l /\ get_material_type h' l = get_material_type h l) /\
    (d < i -> forall l1, nth_error (el_labels h) (i - 1) = Some l1 ->
       get_element_type h' l = get_element_type h l1 /\ get_material_type h' l = get_material_type h l1).
  Proof.
    intros Hok Hn Hd H i l Hi. pose proof Hok as (H1 & H2 & H3 & H4 & H5 & H6 & H7).
    cbn [del_element] in H. cbn zeta in H. injection H as <-.
    destruct (split_at_label label _ d Hd Hn) as (pre & post & E & El & Ef).
    unfold get_element_type at 1 3, get_material_type at 1 3. cbn [el_labels el_etype el_mtype]. rewrite delete_labels, Ef.
    assert (Hn' : NoDup (pre ++ post)) by (rewrite E in Hn; apply NoDup_remove_1 in Hn; exact Hn).
    assert (Hlen : length (pre ++ post) + 1 = length (el_labels h)) by (rewrite E, !app_length; cbn; lia).
    rewrite !gather0_lookup by lia.
    assert (G : forall X (a : list X) j l1, length a = length (el_labels h) -> nth_error (pre ++ post) j = Some l -> nth_error (el_labels h) j = Some l1 ->
      lookup l (pre ++ post) a = lookup l1 (el_labels h) a).
    { intros X a j l1 Ha N1 N2. assert (Ha' : length (pre ++ post) <= length a) by lia. assert (Ha'' : length (el_labels h) <= length a) by lia.
      destruct (lookup_nth l (pre ++ post) a j Hn' Ha' N1) as (x & X1 & ->).
      destruct (lookup_nth l1 (el_labels h) a j Hn Ha'' N2) as (y & X2 & ->). congruence. }
    split.
    - intros Hlt. assert (N1 : nth_error (pre ++ post) i = Some l).
      { rewrite nth_error_app1 by lia. rewrite E, nth_error_app1 in Hi by lia. exact Hi. }
      destruct (getters h Hok l) as (_ & -> & -> & _). split; eapply G; eauto.
    - intros Hgt l1 Hl1. assert (N1 : nth_error (pre ++ post) (i - 1) = Some l).
      { rewrite nth_error_app2 by lia. rewrite E, nth_error_app2 in Hi by lia. rewrite <- Hi, El. replace (i - d) with (S (i - 1 - d)) by lia. reflexivity. }
      destruct (getters h Hok l1) as (_ & -> & -> & _). split; eapply G; eauto.
  Qed.

  Lemma del_then_add (h h1 h2 : elemH F) label E ll : arrays_ok h -> NoDup (el_labels h) -> In label (el_labels h) ->
    del_element (Some h) label = Ok (Some h1) -> ~ In (l_label E) (el_labels h1) -> add_element (Some h1) E = Ok (Some h2) ->
    nth_error (el_labels h) (length (el_labels h) - 1) = Some ll ->
    get_element_type h2 (l_label E) = get_element_type h ll /\ get_material_type h2 (l_label E) = get_material_type h ll.
  Proof.
    intros Hok Hn Hin Hd Hf Ha Hll. pose proof Hok as (H1 & H2 & H3 & H4 & H5 & H6 & H7).
    destruct (In_nth_error _ _ Hin) as [d Hx]. destruct (split_at_label label _ d Hx Hn) as (pre & post & E1 & El & Ef).
    assert (Hlen : length (pre ++ post) + 1 = length (el_labels h)) by (rewrite E1, !app_length; cbn; lia).
    cbn [del_element] in Hd. cbn zeta in Hd. injection Hd as <-. cbn [el_labels] in Hf. rewrite delete_labels, Ef in Hf.
    cbn [add_element el_labels el_conns el_etype el_mtype el_mat el_geo] in Ha. rewrite delete_labels, Ef in Ha.
    mstep Ha. mstep Ha. injection Ha as <-.
    destruct (getters h Hok ll) as (_ & -> & -> & _). unfold get_element_type, get_material_type. cbn [el_labels el_etype el_mtype].
    assert (Hn' : NoDup ((pre ++ post) ++ [l_label E])).
    { rewrite E1 in Hn. apply NoDup_remove_1 in Hn. eapply Permutation.Permutation_NoDup; [apply Permutation.Permutation_cons_append|]. constructor; auto. }
    assert (G : forall (a : list Z) x, length a = length (el_labels h) ->
      gather0 (a ++ [x]) (positions (l_label E) ((pre ++ post) ++ [l_label E])) = lookup ll (el_labels h) a).
    { intros b x Hlx. rewrite gather0_lookup by (rewrite !app_length in *; cbn; lia).
      destruct (lookup_nth (l_label E) ((pre ++ post) ++ [l_label E]) (b ++ [x]) (length (pre ++ post)) Hn') as (y & Y1 & ->).
      - rewrite !app_length in *. cbn. lia.
      - rewrite nth_error_app2, Nat.sub_diag by lia. reflexivity.
      - destruct (lookup_nth ll (el_labels h) b _ Hn ltac:(lia) Hll) as (z & Z1 & ->).
        rewrite nth_error_app1 in Y1 by lia. replace (length (el_labels h) - 1) with (length (pre ++ post)) in Z1 by lia. congruence. }
    split; apply G; auto.
  Qed.

  (** *** Histories *)
  Lemma step_ok (h : option (elemH F)) o h' : match h with Some h => arrays_ok h | None => True end ->
    (forall l, o <> ODel l) -> elem_call h o = Ok h' -> match h' with Some h' => arrays_ok h' | None => True end.
  Proof.
    intros Hok Hd H. destruct h' as [h'|]; auto. destruct h as [h|].
    - destruct o as [E|l|ls p t|ls p|ls ps|ls t|ls t]; cbn [elem_call] in H.
      + eapply add_ok; eauto.
      + exfalso. eapply Hd; eauto.
      + apply (assign_material_spec h h' ls p t Hok H).
      + apply (assign_geometry_spec h h' ls p Hok H).
      + apply (assign_geometries_spec h h' ls ps Hok H).
      + apply (assign_etype_spec h h' ls t Hok H).
      + apply (assign_mtype_spec h h' ls t Hok H).
    - destruct o as [E|l|ls p t|ls p|ls ps|ls t|ls t]; cbn [elem_call] in H.
      + eapply add_first_ok; eauto.
      + discriminate.
      + discriminate.
      + cbn in H. destruct ls as [|[|]]; discriminate.
      + cbn in H. destruct ls as [|[|]]; try discriminate. destruct ps; discriminate.
      + cbn in H. destruct ls as [|[|]]; discriminate.
      + cbn in H. destruct ls as [|[|]]; discriminate.
  Qed.

  Lemma history_ok os (h : elemH F) : (forall l, ~ In (ODel l) os) -> foldM elem_call os None = Ok (Some h) -> arrays_ok h.
  Proof.
    assert (G : forall os (h0 : option (elemH F)) h', match h0 with Some h => arrays_ok h | None => True end ->
      (forall l, ~ In (ODel l) os) -> foldM elem_call os h0 = Ok h' -> match h' with Some h' => arrays_ok h' | None => True end).
    { clear. induction os as [|o os IH]; intros h0 h' Hok Hd H; cbn [foldM] in H; [injection H as <-; auto|].
      mstep H. eapply IH; [|intros l Hl; apply (Hd l); right; auto|exact H]. eapply step_ok; [exact Hok| |exact Ha].
      intros l ->. apply (Hd l). left. auto. }
    intros Hd H. apply (G os None (Some h) I Hd H).
  Qed.

  (** *** dtypes *)
  Lemma assign_dtype labels ps : forall (t t' : table F),
    foldM (fun t p => tab_assign t (positions (fst p) labels) (snd p)) ps t = Ok t' -> t_int t' = t_int t /\ t_width t' = t_width t.
  Proof.
    induction ps as [|[l r] ps IH]; intros t t' H; cbn [foldM fst snd] in H; [injection H as <-; auto|].
    mstep H. destruct (tab_assign_put _ _ _ _ Ha) as (rows & _ & ->). apply IH in H. exact H.
  Qed.

  Lemma row_int_iff (r : list (pynum F)) : row_int r = true <-> int_row r.
  Proof.
    unfold row_int, int_row. destruct r as [|p r]; [split; [discriminate|tauto]|]. rewrite forallb_forall. split.
    - intros H. split; [discriminate|]. intros q Hq. specialize (H q Hq). destruct q; [eauto|discriminate].
    - intros [_ H] q Hq. destruct (H q Hq) as [z ->]. reflexivity.
  Qed.

  Lemma step_dtype (h h' : elemH F) o : elem_call (Some h) o = Ok (Some h') ->
    t_int (el_geo h') = (t_int (el_geo h) && match o with OAdd E => row_int (l_geo E) | _ => true end)%bool /\
    t_int (el_mat h') = (t_int (el_mat h) && match o with OAdd E => row_int (l_mat E) | OMat _ p _ => length p <=? t_width (el_mat h) | _ => true end)%bool /\
    t_width (el_mat h') = match o with OMat _ p _ => Nat.max (t_width (el_mat h)) (length p) | _ => t_width (el_mat h) end.
  Proof.
    destruct o as [E|l|ls p t|ls p|ls ps|ls t|ls t]; cbn [elem_call]; intros H.
    - cbn [add_element] in H. mstep H. mstep H. injection H as <-. unfold tab_vstack in *.
      destruct (length (l_mat E) =? _); [|discriminate]. destruct (length (l_geo E) =? _); [|discriminate].
      injection Ha as <-. injection Ha0 as <-. cbn. auto.
    - cbn [del_element] in H. cbn zeta in H. injection H as <-. cbn. rewrite !andb_true_r. auto.
    - cbn [assign_material] in H. cbn zeta in H. mstep H. injection H as <-. destruct a as [mat' mt'].
      apply material_loop in Ha. destruct Ha as [Ha _]. apply assign_dtype in Ha. cbn [fst snd el_geo el_mat] in *.
      rewrite andb_true_r. split; [reflexivity|]. destruct Ha as [-> ->].
      destruct (Nat.ltb_spec (t_width (el_mat h)) (length p)); cbn [tab_extend t_int t_width].
      + destruct (Nat.leb_spec (length p) (t_width (el_mat h))); [lia|]. rewrite andb_false_r. split; auto. lia.
      + destruct (Nat.leb_spec (length p) (t_width (el_mat h))); [|lia]. rewrite andb_true_r. split; auto. lia.
    - rewrite assign_geometry_as in H. cbn [assign_geometries] in H. mstep H. injection H as <-. apply assign_dtype in Ha.
      cbn. rewrite !andb_true_r. tauto.
    - cbn [assign_geometries] in H. mstep H. injection H as <-. apply assign_dtype in Ha. cbn. rewrite !andb_true_r. tauto.
    - cbn [assign_etype] in H. mstep H. injection H as <-. cbn. rewrite !andb_true_r. auto.
    - cbn [assign_mtype] in H. mstep H. injection H as <-. cbn. rewrite !andb_true_r. auto.
  Qed.

  Lemma step_some (h : elemH F) o h' : elem_call (Some h) o = Ok h' -> exists h1, h' = Some h1.
  Proof.
    destruct o; cbn [elem_call]; intros H; cbn [add_element del_element assign_material assign_geometry assign_geometries assign_etype assign_mtype] in H;
      cbn zeta in H; repeat mstep H; injection H as <-; eauto.
  Qed.

  Lemma dtype_history E0 os (h : elemH F) : foldM elem_call (OAdd E0 :: os) None = Ok (Some h) ->
    (t_int (el_geo h) = true <-> forall E, In E (E0 :: added os) -> int_row (l_geo E)) /\
    (t_int (el_mat h) = true <->
       (forall E, In E (E0 :: added os) -> int_row (l_mat E)) /\
       (forall ls p t, In (OMat ls p t) os -> length p <= length (l_mat E0))) /\
    ((forall ls p t, In (OMat ls p t) os -> length p <= length (l_mat E0)) -> t_width (el_mat h) = length (l_mat E0)).
  Proof.
    revert h. induction os as [|o os IH] using rev_ind; intros h H.
    - cbn in H. injection H as <-. cbn. rewrite !row_int_iff. split; [|split; auto].
      + split; [intros Hr E [<-|[]]; auto|auto].
      + split; [intros Hr; split; [intros E [<-|[]]; auto|tauto]|intros [Hr _]; auto].
    - change (OAdd E0 :: os ++ [o]) with ((OAdd E0 :: os) ++ [o]) in H. rewrite foldM_app in H. mstep H.
      cbn [foldM] in H. mstep H. injection H as ->.
      assert (Hs : exists h1, a = Some h1).
      { clear -Ha. cbn [foldM elem_call add_element bind] in Ha. revert Ha. generalize (ElemH [l_label E0] [l_conn E0] [l_etype E0] [l_mtype E0] (tab_of_row (l_mat E0)) (tab_of_row (l_geo E0))).
        induction os as [|o os IH]; intros e H; cbn [foldM] in H; [injection H as <-; eauto|]. mstep H.
        destruct (step_some _ _ _ Ha) as [h1 ->]. eapply IH; eauto. }
      destruct Hs as [h1 ->]. destruct (IH h1 Ha) as (I1 & I2 & I3).
      destruct (step_dtype h1 h o Ha0) as (S1 & S2 & S3).
      assert (Hadd : added (os ++ [o]) = added os ++ match o with OAdd E => [E] | _ => [] end).
      { unfold added. rewrite flat_map_app. cbn [flat_map]. rewrite app_nil_r. reflexivity. }
      split; [|split].
      + rewrite S1, andb_true_iff, I1, Hadd. split.
        * intros [A1 A2] E [<-|Hi]; [apply A1; left; auto|]. apply in_app_iff in Hi. destruct Hi as [Hi|Hi]; [apply A1; right; auto|].
          destruct o; try contradiction; destruct Hi as [<-|[]]. apply row_int_iff. exact A2.
        * intros A. split; [intros E [<-|Hi]; apply A; [left; auto|right; apply in_app_iff; auto]|].
          destruct o; auto. apply row_int_iff. apply A. right. apply in_app_iff. right. left. auto.
      + rewrite S2, andb_true_iff, I2, Hadd. split.
        * intros [[A1 A2] A3]. split.
          -- intros E [<-|Hi]; [apply A1; left; auto|]. apply in_app_iff in Hi. destruct Hi as [Hi|Hi]; [apply A1; right; auto|].
             destruct o; try contradiction; destruct Hi as [<-|[]]. apply row_int_iff. exact A3.
          -- intros ls p t Hi. apply in_app_iff in Hi. destruct Hi as [Hi|[->|[]]]; [eapply A2; eauto|].
             apply Nat.leb_le in A3. rewrite I3 in A3; auto.
        * intros [A1 A2].
          assert (A2' : forall ls p t, In (OMat ls p t) os -> length p <= length (l_mat E0)).
          { intros ls p t Hi. apply (A2 ls p t). apply in_app_iff. auto. }
          split; [split; [|exact A2']; intros E [<-|Hi]; apply A1; [left; auto|right; apply in_app_iff; auto]|].
          destruct o; auto.
          -- apply row_int_iff. apply A1. right. apply in_app_iff. right. left. auto.
          -- apply Nat.leb_le. rewrite I3 by auto. eapply A2. apply in_app_iff. right. left. reflexivity.
      + intros A2.
        assert (A2' : forall ls p t, In (OMat ls p t) os -> length p <= length (l_mat E0)).
        { intros ls p t Hi. apply (A2 ls p t). apply in_app_iff. auto. }
        rewrite S3. destruct o; auto. rewrite (I3 A2'). apply Nat.max_l. eapply A2. apply in_app_iff. right. left. reflexivity.
  Qed.

  (** *** add_elements *)
  Notation found h E :=
    (get_nodes h (l_label E) = Ok (l_conn E) /\ get_element_type h (l_label E) = Ok (l_etype E) /\
     get_material_type h (l_label E) = Ok (l_mtype E) /\
     get_material_properties h (l_label E) = Ok (map pyval (l_mat E)) /\
     get_geometric_properties h (l_label E) = Ok (map pyval (l_geo E))).

  Lemma add_elements_snoc (es : list (element F)) E :
    add_elements None (es ++ [E]) = (h <- add_elements None es ;; add_element h E).
  Proof.
    unfold add_elements. generalize (@None (elemH F)). induction es as [|E0 es IH]; intros h; cbn [app foldM].
    - cbn [bind]; destruct (add_element h E); reflexivity.
    - destruct (add_element h E0); cbn [bind]; [apply IH|reflexivity|reflexivity].
  Qed.

  Lemma add_widths (h : elemH F) E h' : add_element (Some h) E = Ok (Some h') ->
    el_labels h' = el_labels h ++ [l_label E] /\ t_width (el_mat h') = t_width (el_mat h) /\ t_width (el_geo h') = t_width (el_geo h).
  Proof.
    cbn [add_element]. unfold tab_vstack. destruct (length (l_mat E) =? _); [|discriminate].
    destruct (length (l_geo E) =? _); [|discriminate]. cbn [bind]. intros H. injection H as <-. auto.
  Qed.

  Lemma add_some (h : option (elemH F)) E o : add_element h E = Ok o -> exists h', o = Some h'.
  Proof. destruct h as [h|]; cbn [add_element]; intros H; [mstep H; mstep H|]; injection H as <-; eauto. Qed.

  Lemma added_inv (es : list (element F)) : NoDup (map l_label es) -> es <> [] ->
    forall o, add_elements None es = Ok o -> exists h, o = Some h /\ arrays_ok h /\ el_labels h = map l_label es /\
      (forall E, In E es -> length (l_mat E) = t_width (el_mat h) /\ length (l_geo E) = t_width (el_geo h)) /\
      forall E, In E es -> found h E.
  Proof.
    induction es as [|E es IH] using rev_ind; [congruence|]. intros Hn _ o H. rewrite add_elements_snoc in H. mstep H.
    rewrite map_app in Hn. cbn [map] in Hn.
    assert (Hn' : NoDup (map l_label es) /\ ~ In (l_label E) (map l_label es)).
    { apply NoDup_remove in Hn. rewrite app_nil_r in Hn. exact Hn. }
    destruct (add_some _ _ _ H) as [h' ->]. exists h'. split; [reflexivity|]. destruct es as [|E0 es'].
    - cbn in Ha. injection Ha as <-. split; [exact (add_first_ok _ _ H)|].
      pose proof (add_first_get _ _ H) as G. cbn in H. injection H as <-. cbn [app map el_labels el_mat el_geo tab_of_row t_width] in *.
      split; [reflexivity|]. split; [intros E1 [<-|[]]; auto|intros E1 [<-|[]]; exact G].
    - set (es := E0 :: es') in *. destruct (IH (proj1 Hn') ltac:(discriminate) _ Ha) as (h & -> & K1 & K2 & K3 & K4).
      pose proof (proj2 (add_total h E) (ex_intro _ h' H)) as W. destruct (add_widths _ _ _ H) as (L & W1 & W2).
      split; [exact (add_ok _ _ _ K1 H)|]. split; [rewrite L, K2, map_app; reflexivity|]. split.
      + rewrite W1, W2. intros E1 Hi. apply in_app_iff in Hi. destruct Hi as [Hi|[<-|[]]]; auto.
      + intros E1 Hi. apply in_app_iff in Hi. destruct Hi as [Hi|[<-|[]]].
        * assert (Hne : l_label E1 <> l_label E).
          { intros Ee. apply (proj2 Hn'). rewrite <- Ee. now apply in_map. }
          destruct (add_others h E h' K1 H _ Hne) as (-> & -> & -> & -> & ->). now apply K4.
        * apply (add_get h E h' K1); [|exact H]. rewrite K2. apply Hn'.
  Qed.

  Lemma added_list (es : list (element F)) : NoDup (map l_label es) -> es <> [] ->
    ((exists h, add_elements None es = Ok h) <->
     exists w g, forall E, In E es -> length (l_mat E) = w /\ length (l_geo E) = g) /\
    (forall o, add_elements None es = Ok o ->
     exists h, o = Some h /\ arrays_ok h /\ el_labels h = map l_label es /\ forall E, In E es -> found h E).
  Proof.
    intros Hn Hne. split; [split|].
    - intros [o H]. destruct (added_inv es Hn Hne o H) as (h & _ & _ & _ & W & _). eauto.
    - intros (w & g & W). revert Hn Hne W. induction es as [|E es IH] using rev_ind; [congruence|]. intros Hn _ W.
      rewrite add_elements_snoc. destruct es as [|E0 es']; [cbn; eauto|]. set (es := E0 :: es') in *.
      rewrite map_app in Hn. cbn [map] in Hn. apply NoDup_remove in Hn. rewrite app_nil_r in Hn. destruct Hn as [Hn _].
      destruct (IH Hn ltac:(discriminate) ltac:(intros; apply W, in_app_iff; auto)) as [o Ho]. rewrite Ho. cbn [bind].
      destruct (added_inv es Hn ltac:(discriminate) o Ho) as (h & -> & _ & _ & W' & _).
      destruct (proj1 (add_total h E)) as [h' E']; [|eauto].
      destruct (W E ltac:(apply in_app_iff; right; now left)) as [-> ->].
      destruct (W E0 ltac:(apply in_app_iff; left; now left)) as [A1 A2].
      destruct (W' E0 (or_introl eq_refl)) as [B1 B2]. split; congruence.
    - intros o H. destruct (added_inv es Hn Hne o H) as (h & K1 & K2 & K3 & _ & K4). eauto 10.
  Qed.
End Elem.
