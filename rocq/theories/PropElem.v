(** * Properties of the element table (C05 - C07); every number type *)
From Coq Require Import List ZArith Bool Arith Lia Reals.
Import ListNotations.
From Verif Require Import Num NumR Handlers ListFacts EditFacts SpecElem ElemFacts.

(** C05: every table made by add_element and assign_* calls has one entry per
    element in each array. *)
Theorem C05_arrays : forall F (NF : Num F) os h,
  (forall l, ~ In (ODel l) os) -> foldM elem_call os None = Ok (Some h) -> arrays_ok h.
Proof. intros F NF. exact history_ok. Qed.
Print Assumptions C05_arrays.

(** C05: an added element is found under its label with the given data. *)
Theorem C05_add_element : forall F (NF : Num F) (h : elemH F) E h',
  arrays_ok h -> add_element (Some h) E = Ok (Some h') ->
  (~ In (l_label E) (el_labels h) ->
    get_nodes h' (l_label E) = Ok (l_conn E) /\
    get_element_type h' (l_label E) = Ok (l_etype E) /\
    get_material_type h' (l_label E) = Ok (l_mtype E) /\
    get_material_properties h' (l_label E) = Ok (map (as_stored false) (l_mat E)) /\
    get_geometric_properties h' (l_label E) = Ok (map (as_stored false) (l_geo E))) /\
  forall l, l <> l_label E ->
    get_nodes h' l = get_nodes h l /\ get_element_type h' l = get_element_type h l /\
    get_material_type h' l = get_material_type h l /\
    get_material_properties h' l = get_material_properties h l /\
    get_geometric_properties h' l = get_geometric_properties h l.
Proof.
  intros F NF h E h' Hok H. split; [intros Hf; exact (add_get h E h' Hok Hf H)|exact (add_others h E h' Hok H)].
Qed.
Print Assumptions C05_add_element.

Theorem C05_add_first_element : forall F (NF : Num F) E (h' : elemH F),
  add_element None E = Ok (Some h') ->
  get_nodes h' (l_label E) = Ok (l_conn E) /\
  get_element_type h' (l_label E) = Ok (l_etype E) /\
  get_material_type h' (l_label E) = Ok (l_mtype E) /\
  get_material_properties h' (l_label E) = Ok (map (as_stored false) (l_mat E)) /\
  get_geometric_properties h' (l_label E) = Ok (map (as_stored false) (l_geo E)).
Proof. intros F NF. exact add_first_get. Qed.
Print Assumptions C05_add_first_element.

(** C05: Element(...) takes each property row from either of its two spellings, keeps the
    other data, and raises TypeError exactly when both spellings of a row are given. *)
Theorem C05_element : forall F (NF : Num F) label conn etype mtype mat geo mprop gprop,
  (mk_element label conn etype mtype mat geo mprop gprop = Err TypeError <->
     (mat <> None /\ mprop <> None) \/ (geo <> None /\ gprop <> None)) /\
  (mat = None \/ mprop = None -> geo = None \/ gprop = None ->
   exists E : element F, mk_element label conn etype mtype mat geo mprop gprop = Ok E /\
     l_label E = label /\ l_conn E = conn /\ l_etype E = etype /\ l_mtype E = mtype /\
     (forall r, mat = Some r \/ mprop = Some r -> l_mat E = r) /\ (mat = None -> mprop = None -> l_mat E = [PF fnan]) /\
     (forall r, geo = Some r \/ gprop = Some r -> l_geo E = r) /\ (geo = None -> gprop = None -> l_geo E = [PF fnan])).
Proof.
  intros F NF label conn et mt mat geo mprop gprop. split.
  - unfold mk_element. destruct mat, mprop, geo, gprop; split; intros H; try discriminate; try reflexivity;
      first [left; split; discriminate|right; split; discriminate|destruct H as [[? ?]|[? ?]]; congruence].
  - intros H1 H2. unfold mk_element. destruct mat, mprop; [destruct H1; discriminate|..];
      (destruct geo, gprop; [destruct H2; discriminate|..]); eexists; (split; [reflexivity|]); cbn;
      repeat (split; [first [reflexivity|intros ? [?|?]; congruence|intros; congruence|intros; reflexivity]|]);
      intros; first [reflexivity|congruence].
Qed.
Print Assumptions C05_element.

(** C05: a list of elements with different labels, given to add_elements on an empty
    table: they are listed in order, each found under its label with its data.  It
    works exactly when all have rows of the same widths. *)
Theorem C05_add_elements : forall F (NF : Num F) (es : list (element F)),
  NoDup (map l_label es) -> es <> [] ->
  ((exists h, add_elements None es = Ok h) <->
   exists w g, forall E, In E es -> length (l_mat E) = w /\ length (l_geo E) = g) /\
  (forall o, add_elements None es = Ok o ->
   exists h, o = Some h /\ arrays_ok h /\ el_labels h = map l_label es /\
     forall E, In E es ->
       get_nodes h (l_label E) = Ok (l_conn E) /\ get_element_type h (l_label E) = Ok (l_etype E) /\
       get_material_type h (l_label E) = Ok (l_mtype E) /\
       get_material_properties h (l_label E) = Ok (map (as_stored false) (l_mat E)) /\
       get_geometric_properties h (l_label E) = Ok (map (as_stored false) (l_geo E))).
Proof. intros F NF. exact added_list. Qed.
Print Assumptions C05_add_elements.

(** add_element succeeds exactly when the rows have the width of the table. *)
Theorem C05_add_succeeds : forall F (NF : Num F) (h : elemH F) E,
  (length (l_mat E) = t_width (el_mat h) /\ length (l_geo E) = t_width (el_geo h)) <->
  exists h', add_element (Some h) E = Ok (Some h').
Proof. intros F NF. exact add_total. Qed.
Print Assumptions C05_add_succeeds.

(** C05, C07: assign_geometry. *)
Theorem C05_assign_geometry : forall F (NF : Num F) (h h' : elemH F) labels g,
  arrays_ok h -> length g = t_width (el_geo h) -> assign_geometry (Some h) labels g = Ok (Some h') ->
  arrays_ok h' /\ el_labels h' = el_labels h /\ t_int (el_geo h') = t_int (el_geo h) /\
  forall l,
    get_nodes h' l = get_nodes h l /\ get_element_type h' l = get_element_type h l /\
    get_material_type h' l = get_material_type h l /\
    get_material_properties h' l = get_material_properties h l /\
    (~ In l (named labels h) -> get_geometric_properties h' l = get_geometric_properties h l) /\
    (In l (named labels h) -> In l (el_labels h) ->
       get_geometric_properties h' l = Ok (map (as_stored (t_int (el_geo h))) g)).
Proof.
  intros F NF h h' ls g Hok Hl H. destruct (assign_geometry_spec h h' ls g Hok H) as (A1 & A2 & A3 & _ & _ & A4).
  do 3 (split; auto). intros l. destruct (A4 l) as (B1 & B2 & B3 & B4 & B5 & B6). do 5 (split; auto).
  intros Hi Hj. rewrite (B6 Hi Hj). unfold assigned. rewrite Hl, Nat.eqb_refl. reflexivity.
Qed.
Print Assumptions C05_assign_geometry.

(** C05: assign_geometries with distinct labels: the i-th label gets the i-th row;
    surplus labels or rows are ignored. *)
Theorem C05_assign_geometries : forall F (NF : Num F) (h h' : elemH F) labels gs,
  arrays_ok h -> (forall g, In g gs -> length g = t_width (el_geo h)) -> NoDup (named labels h) ->
  assign_geometries (Some h) labels gs = Ok (Some h') ->
  arrays_ok h' /\ el_labels h' = el_labels h /\ t_int (el_geo h') = t_int (el_geo h) /\
  forall l,
    get_nodes h' l = get_nodes h l /\ get_element_type h' l = get_element_type h l /\
    get_material_type h' l = get_material_type h l /\
    get_material_properties h' l = get_material_properties h l /\
    (forall i g, nth_error (named labels h) i = Some l -> nth_error gs i = Some g -> In l (el_labels h) ->
       get_geometric_properties h' l = Ok (map (as_stored (t_int (el_geo h))) g)) /\
    ((forall i, nth_error (named labels h) i = Some l -> length gs <= i) ->
       get_geometric_properties h' l = get_geometric_properties h l).
Proof.
  intros F NF h h' ls gs Hok Hl Hn H. destruct (assign_geometries_spec h h' ls gs Hok H) as (A1 & A2 & A3 & _ & _ & A4).
  do 3 (split; auto). intros l. destruct (A4 l) as (B1 & B2 & B3 & B4 & B5 & B6). do 4 (split; auto).
  assert (HI : forall g, In (l, g) (combine (named ls h) gs) <-> exists i, nth_error (named ls h) i = Some l /\ nth_error gs i = Some g).
  { intros g. split.
    - intros Hi. apply In_nth_error in Hi. destruct Hi as [i Hi]. rewrite nth_error_combine in Hi. exists i.
      destruct (nth_error (named ls h) i), (nth_error gs i); try discriminate. injection Hi as -> ->. auto.
    - intros (i & E1 & E2). apply nth_error_In with (n := i). rewrite nth_error_combine, E1, E2. reflexivity. }
  split.
  - intros i g Hi Hg Hj. rewrite (B6 g); auto.
    + unfold assigned. rewrite (Hl g) by (eapply nth_error_In; eauto). rewrite Nat.eqb_refl. reflexivity.
    + apply HI. eauto.
    + intros g' Hg'. apply HI in Hg'. destruct Hg' as (j & E1 & E2). rewrite (NoDup_nth_inj (named ls h) j i l) in E2; auto. congruence.
  - intros Hi. apply B5. intros Hx. apply in_map_iff in Hx. destruct Hx as ([l' g] & E & Hx). cbn in E. subst l'.
    apply HI in Hx. destruct Hx as (i & E1 & E2). specialize (Hi i E1). apply nth_error_None in Hi. congruence.
Qed.
Print Assumptions C05_assign_geometries.

(** C05: assign_mtype, assign_etype. *)
Theorem C05_assign_mtype : forall F (NF : Num F) (h h' : elemH F) labels t,
  arrays_ok h -> assign_mtype (Some h) labels t = Ok (Some h') ->
  arrays_ok h' /\ el_labels h' = el_labels h /\ el_mat h' = el_mat h /\ el_geo h' = el_geo h /\
  forall l, get_nodes h' l = get_nodes h l /\ get_element_type h' l = get_element_type h l /\
    get_material_properties h' l = get_material_properties h l /\
    get_geometric_properties h' l = get_geometric_properties h l /\
    (~ In l (named labels h) -> get_material_type h' l = get_material_type h l) /\
    (In l (named labels h) -> In l (el_labels h) -> get_material_type h' l = Ok t).
Proof. intros F NF. exact assign_mtype_spec. Qed.
Print Assumptions C05_assign_mtype.

Theorem C05_assign_etype : forall F (NF : Num F) (h h' : elemH F) labels t,
  arrays_ok h -> assign_etype (Some h) labels t = Ok (Some h') ->
  arrays_ok h' /\ el_labels h' = el_labels h /\ el_mat h' = el_mat h /\ el_geo h' = el_geo h /\
  forall l, get_nodes h' l = get_nodes h l /\ get_material_type h' l = get_material_type h l /\
    get_material_properties h' l = get_material_properties h l /\
    get_geometric_properties h' l = get_geometric_properties h l /\
    (~ In l (named labels h) -> get_element_type h' l = get_element_type h l) /\
    (In l (named labels h) -> In l (el_labels h) -> get_element_type h' l = Ok t).
Proof. intros F NF. exact assign_etype_spec. Qed.
Print Assumptions C05_assign_etype.

(** C05, C07: assign_material brings the table to the larger of the two widths,
    padding with zeros on the right. *)
Theorem C05_assign_material : forall F (NF : Num F) (h h' : elemH F) labels mprop mtype,
  arrays_ok h -> assign_material (Some h) labels mprop mtype = Ok (Some h') ->
  let w' := Nat.max (t_width (el_mat h)) (length mprop) in
  arrays_ok h' /\ el_labels h' = el_labels h /\ el_geo h' = el_geo h /\
  t_width (el_mat h') = w' /\
  t_int (el_mat h') = (t_int (el_mat h) && (w' =? t_width (el_mat h)))%bool /\
  forall l, get_nodes h' l = get_nodes h l /\ get_element_type h' l = get_element_type h l /\
    get_geometric_properties h' l = get_geometric_properties h l /\
    (~ In l (named labels h) ->
       get_material_properties h' l = (r <- get_material_properties h l ;; Ok (pad w' r)) /\
       get_material_type h' l = get_material_type h l) /\
    (In l (named labels h) -> In l (el_labels h) ->
       get_material_properties h' l =
         Ok (map (as_stored (t_int (el_mat h'))) (mprop ++ repeat (PF f0) (w' - length mprop))) /\
       get_material_type h' l = match mtype with None => get_material_type h l | Some t => Ok t end).
Proof. intros F NF. exact assign_material_spec. Qed.
Print Assumptions C05_assign_material.

(** The assignments succeed. *)
Theorem C05_assign_succeeds : forall F (NF : Num F) (h : elemH F) labels, arrays_ok h ->
  (forall mprop mtype, exists h', assign_material (Some h) labels mprop mtype = Ok (Some h')) /\
  (forall gs, (forall g, In g gs -> length g = t_width (el_geo h)) ->
     exists h', assign_geometries (Some h) labels gs = Ok (Some h')) /\
  (forall g, length g = t_width (el_geo h) -> exists h', assign_geometry (Some h) labels g = Ok (Some h')) /\
  (forall t, (exists h', assign_mtype (Some h) labels t = Ok (Some h')) /\
             (exists h', assign_etype (Some h) labels t = Ok (Some h'))).
Proof.
  intros F NF h ls Hok. split; [|split; [|split]].
  - intros. apply assign_material_total. auto.
  - intros. apply assign_geometries_total; auto.
  - intros g Hg. rewrite assign_geometry_as. apply assign_geometries_total; auto.
    intros g' Hg'. apply repeat_spec in Hg'. subst g'. exact Hg.
  - intros. apply assign_types_total. auto.
Qed.
Print Assumptions C05_assign_succeeds.

(** C06: deleting keeps the connectivity and the properties of all others. *)
Theorem C06_delete_keeps : forall F (NF : Num F) (h h' : elemH F) label,
  arrays_ok h -> del_element (Some h) label = Ok (Some h') ->
  el_labels h' = filter (fun l => negb (Z.eqb label l)) (el_labels h) /\
  forall l, l <> label ->
    get_nodes h' l = get_nodes h l /\
    get_material_properties h' l = get_material_properties h l /\
    get_geometric_properties h' l = get_geometric_properties h l.
Proof. intros F NF. exact del_keeps. Qed.
Print Assumptions C06_delete_keeps.

(** C06, defect: the types of the elements before the deleted one are kept; every
    element after it reports the type of its left neighbour in the old table. *)
Theorem C06_delete_shifts_types : forall F (NF : Num F) (h h' : elemH F) label d,
  arrays_ok h -> NoDup (el_labels h) -> nth_error (el_labels h) d = Some label ->
  del_element (Some h) label = Ok (Some h') ->
  forall i l, nth_error (el_labels h) i = Some l ->
  (i < d -> get_element_type h' l = get_element_type h l /\ get_material_type h' l = get_material_type h l) /\
  (d < i -> forall l1, nth_error (el_labels h) (i - 1) = Some l1 ->
     get_element_type h' l = get_element_type h l1 /\ get_material_type h' l = get_material_type h l1).
Proof. intros F NF. exact del_types. Qed.
Print Assumptions C06_delete_shifts_types.

(** C06, defect: an element added after a deletion reports the types of the last
    element of the old table instead of its own. *)
Theorem C06_add_after_delete : forall F (NF : Num F) (h h1 h2 : elemH F) label E last_label,
  arrays_ok h -> NoDup (el_labels h) -> In label (el_labels h) ->
  del_element (Some h) label = Ok (Some h1) ->
  ~ In (l_label E) (el_labels h1) -> add_element (Some h1) E = Ok (Some h2) ->
  nth_error (el_labels h) (length (el_labels h) - 1) = Some last_label ->
  get_element_type h2 (l_label E) = get_element_type h last_label /\
  get_material_type h2 (l_label E) = get_material_type h last_label.
Proof. intros F NF. exact del_then_add. Qed.
Print Assumptions C06_add_after_delete.

(** C07: after any history of calls the geometric table has integer dtype iff all
    rows ever added were integer; the material table iff in addition
    assign_material never had to widen it. *)
Theorem C07_dtype : forall F (NF : Num F) E0 os (h : elemH F),
  foldM elem_call (OAdd E0 :: os) None = Ok (Some h) ->
  (t_int (el_geo h) = true <-> forall E, In E (E0 :: added os) -> int_row (l_geo E)) /\
  (t_int (el_mat h) = true <->
     (forall E, In E (E0 :: added os) -> int_row (l_mat E)) /\
     (forall ls p t, In (OMat ls p t) os -> length p <= length (l_mat E0))).
Proof.
  intros F NF E0 os h H. destruct (dtype_history E0 os h H) as (H1 & H2 & _). auto.
Qed.
Print Assumptions C07_dtype.

(** C07: a float table stores exactly the given numbers; an integer table
    truncates the floats among them. *)
Theorem C07_assigned_geometry : forall F (NF : Num F) (h h' : elemH F) labels g l,
  arrays_ok h -> length g = t_width (el_geo h) -> assign_geometry (Some h) labels g = Ok (Some h') ->
  In l (named labels h) -> In l (el_labels h) ->
  (t_int (el_geo h) = false -> get_geometric_properties h' l = Ok (map (as_stored false) g)) /\
  (t_int (el_geo h) = true -> get_geometric_properties h' l =
     Ok (map (fun p => match p with PI z => fofZ z | PF x => ftrunc x end) g)).
Proof.
  intros F NF h h' ls g l Hok Hl H Hi Hj.
  destruct (C05_assign_geometry F NF h h' ls g Hok Hl H) as (_ & _ & _ & A). destruct (A l) as (_ & _ & _ & _ & _ & B).
  rewrite (B Hi Hj). split; intros ->; do 2 f_equal; reflexivity.
Qed.
Print Assumptions C07_assigned_geometry.

(** C07 for materials: a floating table, or one that had to be widened, stores
    exactly the given numbers followed by zeros. *)
Theorem C07_assigned_material : forall F (NF : Num F) (h h' : elemH F) labels mprop mtype l,
  arrays_ok h -> assign_material (Some h) labels mprop mtype = Ok (Some h') ->
  In l (named labels h) -> In l (el_labels h) ->
  let w' := Nat.max (t_width (el_mat h)) (length mprop) in
  (t_int (el_mat h) = false \/ t_width (el_mat h) < length mprop ->
     get_material_properties h' l = Ok (pad w' (map (as_stored false) mprop))) /\
  (t_int (el_mat h) = true -> length mprop <= t_width (el_mat h) ->
     get_material_properties h' l =
       Ok (map (fun p => match p with PI z => fofZ z | PF x => ftrunc x end) mprop ++
           repeat (ftrunc f0) (w' - length mprop))).
Proof.
  intros F NF h h' ls mp mt l Hok H Hi Hj w'.
  destruct (C05_assign_material F NF h h' ls mp mt Hok H) as (_ & _ & _ & _ & A5 & A). fold w' in A5, A.
  destruct (A l) as (_ & _ & _ & _ & B). destruct (B Hi Hj) as [-> _].
  assert (Hrep : forall (p : pynum F) n, map (as_stored (t_int (el_mat h'))) (repeat p n) = repeat (as_stored (t_int (el_mat h')) p) n).
  { intros p n. induction n; cbn; congruence. }
  split.
  - intros Hc. assert (E : t_int (el_mat h') = false).
    { rewrite A5. destruct Hc as [->|Hc]; [reflexivity|]. destruct (Nat.eqb_spec w' (t_width (el_mat h))); [|apply andb_false_r].
      unfold w' in e. lia. }
    rewrite map_app, Hrep, E. unfold pad. rewrite map_length. reflexivity.
  - intros E1 E2. assert (E : t_int (el_mat h') = true).
    { rewrite A5, E1. unfold w'. rewrite Nat.max_l by lia. rewrite Nat.eqb_refl. reflexivity. }
    rewrite map_app, Hrep, E. reflexivity.
Qed.
Print Assumptions C07_assigned_material.

Lemma Rtrunc_small (x : R) : (0 <= x < 1)%R -> Rtrunc x = 0%R.
Proof.
  intros H. unfold Rtrunc. destruct (Rle_dec 0 x); [|Lra.lra].
  unfold Int_part. rewrite <- (tech_up x 1); [reflexivity| |]; cbn; Lra.lra.
Qed.

(** C07, the wish "stored as given" fails: with two calls every area in [0,1)
    becomes 0. *)
Theorem C07_stored_as_given_refuted : forall x : R, (0 <= x < 1)%R -> exists (h h' : elemH R),
  add_element None (Elem 1%Z (1, 2)%Z 1%Z 1%Z [PI 1%Z] [PI 1%Z]) = Ok (Some h) /\
  assign_geometry (Some h) All [PF x] = Ok (Some h') /\
  get_geometric_properties h' 1 = Ok [0%R].
Proof.
  intros x Hx. do 2 eexists. split; [reflexivity|]. split; [reflexivity|].
  cbn -[Rtrunc]. rewrite Rtrunc_small by exact Hx. reflexivity.
Qed.
Print Assumptions C07_stored_as_given_refuted.

(** ** The hypotheses are met *)
Section Examples.
  Context {F : Type} `{NF : Num F}.
  Definition exe1 : element F := Elem 7%Z (1, 2)%Z 1%Z 1%Z [PI 1%Z; PF f1] [PI 3%Z].
  Definition exe2 : element F := Elem 4%Z (2, 5)%Z 1%Z 2%Z [PI 8%Z; PF f1] [PI 4%Z].
  Definition exe3 : element F := Elem 9%Z (2, 6)%Z 1%Z 1%Z [PI 8%Z; PF f1] [PI 5%Z].
  Definition exe_os : list (elem_op F) :=
    [OAdd exe1; OAdd exe2; OMat (Labs [4%Z]) [PF f1; PI 2%Z; PI 3%Z] (Some 2%Z); OGeo All [PI 6%Z]].

  Example C05_meets : exists h, foldM elem_call exe_os None = Ok (Some h) /\ arrays_ok h /\
    (forall l, ~ In (ODel l) exe_os) /\ length [PF (F := F) f1] = t_width (el_geo h) /\ NoDup (named All h) /\
    t_int (el_geo h) = true /\ t_int (el_mat h) = false /\
    get_material_properties h 7 = Ok [fofZ 1; f1; f0] /\ get_material_properties h 4 = Ok [f1; fofZ 2; fofZ 3].
  Proof.
    eexists. assert (Hd : forall l, ~ In (ODel l) exe_os) by (intros l [H|[H|[H|[H|[]]]]]; discriminate).
    assert (E : foldM elem_call exe_os None = Ok (Some (ElemH [7; 4]%Z [(1, 2); (2, 5)]%Z [1; 1]%Z [1; 2]%Z
      (Tab false 3 [[fofZ 1; f1; f0]; [f1; fofZ 2; fofZ 3]]) (Tab true 1 [[fofZ 6]; [fofZ 6]])))) by reflexivity.
    split; [exact E|]. split; [exact (C05_arrays F NF _ _ Hd E)|]. split; [exact Hd|]. split; [reflexivity|].
    split; [repeat constructor; cbn; intuition lia|]. repeat split; reflexivity.
  Qed.

  (** Three elements of types 1, 2, 1; deleting the first one makes element 4
      report type 1 and element 9 report type 2; a new element then reports 1. *)
  Example C06_meets : exists h h1 h2, foldM elem_call [OAdd exe1; OAdd exe2; OAdd exe3] None = Ok (Some h) /\
    arrays_ok h /\ NoDup (el_labels h) /\ del_element (Some h) 7 = Ok (Some h1) /\
    get_material_type h 4 = Ok 2%Z /\ get_material_type h1 4 = Ok 1%Z /\ get_material_type h1 9 = Ok 2%Z /\
    add_element (Some h1) (Elem 7%Z (1, 2)%Z 1%Z 2%Z [PI 1%Z; PF f1] [PI 3%Z]) = Ok (Some h2) /\
    get_material_type h2 7 = Ok 1%Z.
  Proof.
    do 3 eexists. split; [reflexivity|]. split; [|split].
    - repeat split; try reflexivity; repeat constructor.
    - repeat constructor; cbn; intuition lia.
    - split; [reflexivity|]. repeat split; reflexivity.
  Qed.

  Example C05_add_elements_meets : NoDup (map l_label [exe1; exe2; exe3]) /\
    mk_element 7 (1, 2)%Z 1 1 (Some [PI 1%Z; PF f1]) None None (Some [PI 3%Z]) = Ok exe1 /\
    exists h, add_elements None [exe1; exe2; exe3] = Ok (Some h).
  Proof.
    split; [repeat constructor; cbn; intuition lia|]. split; [reflexivity|]. eexists. reflexivity.
  Qed.
End Examples.
