(** * Properties of model definition and build() (C01 - C04, C08, C09)

    All theorems hold for every number type [F] (IEEE doubles included) and for
    every sort routine [argsort] that returns some sorting permutation. *)
From Coq Require Import List ZArith Bool Arith Lia Permutation Sorting.Sorted.
Import ListNotations.
From Verif Require Import Num Vec Handlers Material Analysis Truss Equil Solver Run SpecBuild BuildFacts BuildProps EditFacts.

(** C01: after build the node table is the given one sorted by label, and the
    rows of the support and load tables are those given for the same label,
    free resp. zero if none was given. *)
Theorem C01_build_tables : forall F (NF : Num F) argsort m m' ns bs fs,
  argsort_ok argsort ->
  nodes_are (m_nodes m) ns -> bounds_are (m_bounds m) bs -> forces_are (m_forces m) fs ->
  NoDup (map fst ns) -> 2 <= length ns ->
  build argsort m = Ok m' ->
  matches ns bs /\ matches ns fs /\
  exists ns' w, nodes_are (m_nodes m') ns' /\ Permutation ns' ns /\ StronglySorted Z.lt (map fst ns') /\
    bounds_are (m_bounds m') (rows_for bs [1; 1; 1]%Z (map fst ns')) /\
    (forall r, In r (map snd fs) -> length r = w) /\
    (forall fh, m_forces m = Some fh -> e_width fh = w) /\
    (forall fh, m_forces m' = Some fh -> e_width fh = w) /\
    forces_are (m_forces m') (rows_for fs (repeat f0 w) (map fst ns')) /\
    m_elems m' = m_elems m.
Proof. intros F NF. exact build_tables. Qed.
Print Assumptions C01_build_tables.

(** C01: and build does return for every well-formed model. *)
Theorem C01_build_succeeds : forall F (NF : Num F) argsort m ns bs fs,
  argsort_ok argsort ->
  nodes_are (m_nodes m) ns -> bounds_are (m_bounds m) bs -> forces_are (m_forces m) fs ->
  NoDup (map fst ns) -> 2 <= length ns ->
  m_elems m <> None -> m_forces m <> None -> m_bounds m = None \/ bs <> [] ->
  (forall r, In r (map snd bs) -> length r = 3) ->
  matches ns bs -> matches ns fs ->
  exists m', build argsort m = Ok m'.
Proof. intros F NF. exact build_total. Qed.
Print Assumptions C01_build_succeeds.

(** The tables after add_nodes, add_bounds_U, add_forces calls are what was added. *)
Theorem C01_added_rows : forall F (NF : Num F) (ns : list (Z * v3 F)) bs (fs : list (Z * list F)) hb hf,
  add_bounds_U None bs = Ok hb -> add_forces None fs = Ok hf ->
  nodes_are (add_nodes None ns) ns /\ bounds_are hb bs /\ forces_are hf fs.
Proof.
  intros F NF ns bs fs hb hf Hb Hf. split; [|split].
  - exact (add_nodes_are ns None [] eq_refl).
  - exact (add_bounds_are bs None [] hb eq_refl Hb).
  - exact (add_forces_are fs None [] hf eq_refl Hf).
Qed.
Print Assumptions C01_added_rows.

(** C02: a second row for a node, or a row for an unknown node, is an error. *)
Theorem C02_build_rejects : forall F (NF : Num F) argsort m ns bs fs,
  argsort_ok argsort ->
  nodes_are (m_nodes m) ns -> bounds_are (m_bounds m) bs -> forces_are (m_forces m) fs ->
  NoDup (map fst ns) -> 2 <= length ns ->
  ~ matches ns bs \/ ~ matches ns fs -> exists e, build argsort m = Err e.
Proof. intros F NF. exact build_rejects. Qed.
Print Assumptions C02_build_rejects.

(** The restriction to two nodes is needed: with a single node NumPy broadcasts
    the label comparison, and two load rows for it are accepted. *)
Definition ex_el {F} `{Num F} : elemH F :=
  ElemH [7%Z] [(1, 2)%Z] [1%Z] [1%Z] (Tab false 1 [[f1]]) (Tab false 1 [[f1]]).
Definition ex_set {F} `{Num F} : settings F :=
  Settings (Same 10%Z) true f1 f1 f1 f1 f1 8%Z 8%Z 10%Z 8%Z f1 f1 (Same (0%Z, None)) 0%Z None false false 0%Z 1%Z.

Theorem C02_single_node_refuted : forall F (NF : Num F), exists m m' fs,
  nodes_are (m_nodes m) [(1%Z, V3 f0 f0 f0)] /\ bounds_are (m_bounds m) [] /\ forces_are (m_forces m) fs /\
  ~ matches [(1%Z, V3 f0 f0 f0)] fs /\ build argsort_ins m = Ok m'.
Proof.
  intros F NF.
  exists (Model (add_node None 1%Z (V3 f0 f0 f0)) (Some ex_el) None
            (Some (ForceH [1; 1]%Z 3 [[f1; f0; f0]; [f0; f1; f0]])) ex_set None).
  eexists. exists [(1%Z, [f1; f0; f0]); (1%Z, [f0; f1; f0])].
  split; [split; reflexivity|]. split; [reflexivity|]. split; [repeat constructor|].
  split. { intros [H _]. inversion H. cbn in *. tauto. }
  cbv. reflexivity.
Qed.
Print Assumptions C02_single_node_refuted.

(** C03: component [c] of the [p]-th node (in label order) is active iff its flag
    is 1 and locked iff it is 0 (1 if no support was given for the node); both
    lists are increasing; together they are all DOFs if the flags are 0 or 1. *)
Theorem C03_dof_partition : forall F (NF : Num F) argsort m m' ns bs fs,
  argsort_ok argsort ->
  nodes_are (m_nodes m) ns -> bounds_are (m_bounds m) bs -> forces_are (m_forces m) fs ->
  NoDup (map fst ns) -> 2 <= length ns -> (forall r, In r (map snd bs) -> length r = 3) ->
  build argsort m = Ok m' ->
  exists nh u, m_nodes m' = Some nh /\ m_built m' = Some u /\
    (forall p l c, nth_error (n_labels nh) p = Some l -> c < 3 ->
       (In (3 * p + c) (a_DOF1 (u_an u)) <-> nth c (row_for bs [1; 1; 1]%Z l) 0%Z = 1%Z) /\
       (In (3 * p + c) (a_DOF0 (u_an u)) <-> nth c (row_for bs [1; 1; 1]%Z l) 1%Z = 0%Z)) /\
    StronglySorted lt (a_DOF1 (u_an u)) /\ StronglySorted lt (a_DOF0 (u_an u)) /\
    (forall k, In k (a_DOF0 (u_an u) ++ a_DOF1 (u_an u)) -> k < 3 * length ns) /\
    u_ndof1 u = length (a_DOF1 (u_an u)) /\
    ((forall l v, In (l, v) bs -> incl v [0; 1]%Z) ->
      Permutation (a_DOF0 (u_an u) ++ a_DOF1 (u_an u)) (seq 0 (3 * length ns))).
Proof. intros F NF. exact build_partition. Qed.
Print Assumptions C03_dof_partition.

(** Again two nodes are needed: a single support row is stored as a 1-D array, so
    sorting a one-node model keeps only its first flag. *)
Theorem C03_single_node_refuted : forall F (NF : Num F) x y z, exists m m' u,
  nodes_are (m_nodes m) [(1%Z, V3 f0 f0 f0)] /\ add_bound_U None 1 [x; y; z] = Ok (m_bounds m) /\
  build argsort_ins m = Ok m' /\ m_built m' = Some u /\
  forall k, In k (a_DOF0 (u_an u) ++ a_DOF1 (u_an u)) -> k = 0.
Proof.
  intros F NF x y z.
  exists (Model (add_node None 1%Z (V3 f0 f0 f0)) (Some ex_el) (Some (BoundH [1%Z] (UFlat [x; y; z])))
            (Some (ForceH [1]%Z 3 [[f1; f0; f0]])) ex_set None).
  destruct (Z.eqb_spec 0 x) as [<-|H0]; [|destruct (Z.eqb_spec 1 x) as [<-|H1]].
  - do 2 eexists. split; [split; reflexivity|]. split; [reflexivity|]. split; [cbv; reflexivity|]. split; [reflexivity|].
    cbn. intros k [<-|[]]. reflexivity.
  - do 2 eexists. split; [split; reflexivity|]. split; [reflexivity|]. split; [cbv; reflexivity|]. split; [reflexivity|].
    cbn. intros k [<-|[]]. reflexivity.
  - do 2 eexists. split; [split; reflexivity|]. split; [reflexivity|].
    assert (E0 : dofs_with 0 [x] 3 = Ok []).
    { destruct x; [congruence|reflexivity|reflexivity]. }
    assert (E1 : dofs_with 1 [x] 3 = Ok []).
    { destruct x as [|[p|p|]|p]; try reflexivity. congruence. }
    split; [|split].
    + unfold build. cbn -[dofs_with analysis_build Nat.mul]. change (3 * 1) with 3. rewrite E0. cbn [bind]. rewrite E1. cbn [bind].
      unfold analysis_build. cbn [gather bind]. reflexivity.
    + reflexivity.
    + cbn. tauto.
Qed.
Print Assumptions C03_single_node_refuted.

(** C04: permuting the add calls gives the same built model, whatever the sort
    routine does. *)
Theorem C04_insertion_order : forall F (NF : Num F) argsort1 argsort2 st el ns1 ns2 bs1 bs2 fs1 fs2 hb1 hf1 m',
  argsort_ok argsort1 -> argsort_ok argsort2 ->
  Permutation ns1 ns2 -> Permutation bs1 bs2 -> Permutation fs1 fs2 ->
  NoDup (map fst ns1) -> 2 <= length ns1 -> (forall r, In r (map snd bs1) -> length r = 3) ->
  add_bounds_U None bs1 = Ok hb1 -> add_forces None fs1 = Ok hf1 ->
  build argsort1 (Model (add_nodes None ns1) el hb1 hf1 st None) = Ok m' ->
  exists hb2 hf2, add_bounds_U None bs2 = Ok hb2 /\ add_forces None fs2 = Ok hf2 /\
    build argsort2 (Model (add_nodes None ns2) el hb2 hf2 st None) = Ok m'.
Proof. intros F NF. exact build_order. Qed.
Print Assumptions C04_insertion_order.

(** C08: histories of additions and deletions leave exactly the expected rows. *)
Theorem C08_node_history : forall F (NF : Num F) es (h' : option (nodeH F)),
  foldM node_edit es None = Ok h' -> nodes_are h' (fold_left edited es []).
Proof. intros F NF es h'. exact (node_history es None h' [] eq_refl). Qed.
Print Assumptions C08_node_history.

Theorem C08_force_history : forall F (NF : Num F) es (h' : option (forceH F)),
  foldM force_edit es None = Ok h' -> forces_are h' (fold_left edited es []).
Proof. intros F NF es h'. exact (force_history es None h' [] eq_refl). Qed.
Print Assumptions C08_force_history.

Theorem C08_bound_history : forall a v b w es h',
  foldM bound_edit (Add a v :: Add b w :: es) None = Ok h' ->
  bounds_are h' (fold_left edited (Add a v :: Add b w :: es) []).
Proof. exact bound_history. Qed.
Print Assumptions C08_bound_history.

(** C08: adding under a fresh label and deleting that label restores the table. *)
Theorem C08_node_round_trip : forall F (NF : Num F) (h : nodeH F) l v,
  length (n_coords h) = length (n_labels h) -> ~ In l (n_labels h) ->
  del_node (add_node (Some h) l v) l = Ok (Some h).
Proof. intros F NF. exact node_round_trip. Qed.
Print Assumptions C08_node_round_trip.

Theorem C08_force_round_trip : forall F (NF : Num F) (h : forceH F) l v h1,
  length (e_rows h) = length (e_nodes h) -> ~ In l (e_nodes h) ->
  add_force (Some h) l v = Ok h1 -> del_force h1 l = Ok (Some h).
Proof. intros F NF. exact force_round_trip. Qed.
Print Assumptions C08_force_round_trip.

Theorem C08_bound_round_trip : forall ns w rows l v h1,
  length rows = length ns -> ~ In l ns ->
  add_bound_U (Some (BoundH ns (UMat w rows))) l v = Ok h1 ->
  del_bound_U h1 l = Ok (Some (BoundH ns (UMat w rows))).
Proof. exact bound_round_trip. Qed.
Print Assumptions C08_bound_round_trip.

(** C08, defect: deleting the only support leaves a table to which no support of
    the same size can be added. *)
Theorem C08_single_bound_defect : forall n x v, exists h',
  (h1 <- add_bound_U None n (x :: v) ;; del_bound_U h1 n) = Ok h' /\
  forall n' v', length v' = length (x :: v) -> add_bound_U h' n' v' = Err ValueError.
Proof. exact bound_single_defect. Qed.
Print Assumptions C08_single_bound_defect.

(** C09: a second build, also after a run (which only replaces the results),
    gives the same model. *)
Theorem C09_build_again : forall F (NF : Num F) argsort m m1 ns bs fs,
  argsort_ok argsort ->
  nodes_are (m_nodes m) ns -> bounds_are (m_bounds m) bs -> forces_are (m_forces m) fs ->
  NoDup (map fst ns) -> 2 <= length ns ->
  build argsort m = Ok m1 ->
  build argsort m1 = Ok m1 /\
  forall argsortF solve fuel m2 out, run argsortF solve m1 fuel = Ok (m2, out) -> build argsort m2 = Ok m1.
Proof.
  intros F NF A m m1 ns bs fs HA Hn Hb Hf Hd H2 H. split.
  - pose proof (build_again A m m1 ns bs fs (m_built m1) HA Hn Hb Hf Hd H2 H) as E. destruct m1. exact E.
  - intros AF S fuel m2 out R. destruct (run_keeps AF S m1 m2 fuel out R) as [u ->].
    exact (build_again A m m1 ns bs fs u HA Hn Hb Hf Hd H2 H).
Qed.
Print Assumptions C09_build_again.

(** C09, defect: after build every node has a support and a load row, so adding
    one for any node makes the next build raise. *)
Theorem C09_add_after_build : forall F (NF : Num F) argsort m m1 ns bs fs,
  argsort_ok argsort ->
  nodes_are (m_nodes m) ns -> bounds_are (m_bounds m) bs -> forces_are (m_forces m) fs ->
  NoDup (map fst ns) -> 2 <= length ns ->
  build argsort m = Ok m1 ->
  forall l, In l (map fst ns) ->
  (forall v h, add_bound_U (m_bounds m1) l v = Ok h -> exists e, build argsort (with_bounds m1 h) = Err e) /\
  (forall v h, add_force (m_forces m1) l v = Ok h -> exists e, build argsort (with_forces m1 h) = Err e).
Proof. intros F NF. exact build_then_add. Qed.
Print Assumptions C09_add_after_build.

(** ** The hypotheses are met: three nodes added out of order, a support for two of
    them and a load for one. *)
Section Examples.
  Context {F : Type} `{NF : Num F}.
  Definition exb_ns : list (Z * v3 F) := [(5%Z, V3 f1 f0 f0); (1%Z, V3 f0 f0 f0); (2%Z, V3 f0 f1 f0)].
  Definition exb_bs : list (Z * list Z) := [(5, [0; 0; 0]); (2, [0; 1; 0])]%Z.
  Definition exb_fs : list (Z * list F) := [(2%Z, [f0; f1; f0])].
  Definition exb_hb : option boundH := Some (BoundH [5; 2]%Z (UMat 3 [[0; 0; 0]; [0; 1; 0]]%Z)).
  Definition exb_hf : option (forceH F) := Some (ForceH [2%Z] 3 [[f0; f1; f0]]).
  Definition exb_m : model F := Model (add_nodes None exb_ns) (Some ex_el) exb_hb exb_hf ex_set None.

  Example exb_added : add_bounds_U None exb_bs = Ok exb_hb /\ add_forces None exb_fs = Ok exb_hf.
  Proof. split; reflexivity. Qed.

  Example exb_hypotheses :
    argsort_ok argsort_ins /\
    nodes_are (m_nodes exb_m) exb_ns /\ bounds_are (m_bounds exb_m) exb_bs /\ forces_are (m_forces exb_m) exb_fs /\
    NoDup (map fst exb_ns) /\ 2 <= length exb_ns /\
    m_elems exb_m <> None /\ m_forces exb_m <> None /\ (m_bounds exb_m = None \/ exb_bs <> []) /\
    (forall r, In r (map snd exb_bs) -> length r = 3) /\
    matches exb_ns exb_bs /\ matches exb_ns exb_fs /\
    (forall l v, In (l, v) exb_bs -> incl v [0; 1]%Z).
  Proof.
    split; [exact argsort_ins_ok|].
    destruct (C01_added_rows F NF exb_ns exb_bs exb_fs exb_hb exb_hf eq_refl eq_refl) as (H1 & H2 & H3).
    split; [exact H1|]. split; [exact H2|]. split; [exact H3|].
    split. { repeat constructor; cbn; intuition lia. }
    split; [cbn; lia|]. split; [discriminate|]. split; [discriminate|]. split; [right; discriminate|].
    split. { intros r [<-|[<-|[]]]; reflexivity. }
    split. { split; [repeat constructor; cbn; intuition lia|]. intros x [<-|[<-|[]]]; cbn; auto. }
    split. { split; [repeat constructor; cbn; intuition lia|]. intros x [<-|[]]; cbn; auto. }
    intros l v [E|[E|[]]]; injection E as <- <-; intros x Hx; cbn in Hx |- *; tauto.
  Qed.

  Example exb_builds : exists m', build argsort_ins exb_m = Ok m'.
  Proof.
    destruct exb_hypotheses as (H1 & H2 & H3 & H4 & H5 & H6 & H7 & H8 & H9 & H10 & H11 & H12 & _).
    exact (C01_build_succeeds F NF _ _ _ _ _ H1 H2 H3 H4 H5 H6 H7 H8 H9 H10 H11 H12).
  Qed.

  (** A support for the unknown node 9. *)
  Example C02_meets : ~ matches exb_ns ((9, [0; 0; 0])%Z :: exb_bs).
  Proof. intros [_ H]. specialize (H 9%Z (or_introl eq_refl)). cbn in H. intuition lia. Qed.

  Example C04_meets : Permutation exb_ns (rev exb_ns) /\ exb_ns <> rev exb_ns.
  Proof. split; [apply Permutation_rev|]. cbn. unfold exb_ns. congruence. Qed.

  (** Adding 1 and 2, deleting 1, adding 3. *)
  Example C08_meets : exists h, foldM bound_edit [Add 1 [0; 0; 0]; Add 2 [0; 1; 1]; Del 1; Add 3 [1; 1; 0]]%Z None = Ok h /\
    bounds_are h [(2, [0; 1; 1]); (3, [1; 1; 0])]%Z.
  Proof. eexists. split; [reflexivity|]. cbn. repeat constructor. Qed.
  Example C08_node_meets : exists h, foldM node_edit [Add 1%Z (V3 f0 f0 f0); Add 2%Z (V3 f1 f0 f0); Del 1%Z] None = Ok h /\
    nodes_are h [(2%Z, V3 f1 f0 f0)].
  Proof. eexists. split; [reflexivity|]. split; reflexivity. Qed.

  (** Adding a support for node 1, which had none, after build. *)
  Example C09_meets : exists m1 h e, build argsort_ins exb_m = Ok m1 /\
    add_bound_U (m_bounds m1) 1 [0; 0; 0]%Z = Ok h /\ build argsort_ins (with_bounds m1 h) = Err e.
  Proof. do 3 eexists. split; [cbv; reflexivity|]. split; cbv; reflexivity. Qed.
End Examples.
