(** * Calls that raise or are interrupted

    C46 defining a model with calls that fail, C47 an interrupted build, C48 a run
    that raises or is interrupted.  Vocabulary: SpecCrash.v; the methods statement by
    statement: Crash.v; SpecBuild.v. *)
From Coq Require Import List ZArith Bool Arith Lia Permutation.
Import ListNotations.
From Verif Require Import Num NumFix Vec ListFacts Handlers Material Analysis Truss Equil Solver Run SpecBuild BuildFacts BuildProps EditFacts SpecMech SpecRun
  Crash CrashFacts SpecCrash CrashProps CrashBuild CrashRun ExRun.

(** ** C46 failed definitions *)
(** The user tries any calls that add nodes, supports, loads and bars to a new model,
    and goes on when a call raises or is interrupted at any point.  If [build] then
    returns, and the equilibrium equations can be evaluated with the bars at hand (or no
    bar call failed), the model object is exactly that of some of the tried calls
    carried out completely, all of those that returned among them: nothing is left
    of half a call.  At least two supports must have been given, or one of the nodes
    must have been left without. *)
Theorem C46_nothing_half : forall F (NF : Num F) argsortZ st att (s : xmodel F),
  argsort_ok argsortZ -> tried att (x_of (fresh st)) s -> outcome (xbuild argsortZ) s = Ok tt ->
  2 <= supports_given att \/ (exists l x, In (AddNode l x, true) att /\ forall v b, ~ In (AddBound l v, b) att) ->
  (forall E, ~ In (AddElement E, false) att) \/
    (exists c V V0 w a b, x_elems s = Some (c_elems c) /\ equilibrium c V V0 w a = Ok b) ->
  exists cs m, took att cs /\ foldM does cs (fresh st) = Ok m /\ s = x_of m.
Proof.
  intros F NF A st att s HA Ht Hb Hsup Hel.
  destruct (tried_bound st att s Ht) as (I1 & I2 & I3 & I4 & I5).
  destruct (xbuild_ok_inv A s Hb) as (O1 & L & OL & O2 & O3).
  destruct (tried_inv st att s Ht) as [(cs & m & K1 & K2 & _ & K3)|[T|[T|[T|[T (E & HE)]]]]].
  - eauto.
  - exfalso. exact (torn_n_fix A HA _ T tt O1).
  - exfalso. refine (torn_b_fix A HA L _ T _ tt O2).
    destruct (xb_vals (x_bounds s)) as [[l|w rows]|] eqn:Ev; [|left; eauto|right; left; auto].
    right; right. destruct Hsup as [Hsup|(l1 & x & Hin & Hno)]; [specialize (I2 l eq_refl); lia|].
    destruct (I4 _ _ Hin) as (ls & E1 & E2). destruct (fix_nodes_perm A _ _ HA O1 OL) as (ls' & E3 & P).
    rewrite E1 in E3. injection E3 as <-. exists l1. split; [eapply Permutation_in; [apply Permutation_sym; exact P|exact E2]|].
    intros ns En Hi. destruct (I3 _ _ En Hi) as (v & b & Hv). exact (Hno v b Hv).
  - exfalso. exact (torn_f_fix A HA L _ T tt O3).
  - exfalso. destruct Hel as [Hel|(c & V & V0 & w & a & b & Ec & Eq)]; [exact (Hel E HE)|].
    rewrite Ec in T. exact (torn_e_eval _ c V V0 w a b eq_refl T Eq).
Qed.
Print Assumptions C46_nothing_half.

(** What a failed call leaves: [ValueError], and the label with no row. *)
Theorem C46_failed_support : forall F (NF : Num F) (m : model F) n v e,
  outcome (xcall (AddBound n v)) (x_of m) = Err e ->
  e = ValueError /\ exists h, m_bounds m = Some h /\
    final (xcall (AddBound n v)) (x_of m) = put_bounds (BoundX (Some (b_nodes h ++ [n])) (Some (b_vals h))) (x_of m).
Proof.
  intros F NF m n v e H. cbn [xcall] in *. unfold in_bounds in *. rewrite zoom_outcome in H. rewrite zoom_final by apply put_bounds_same.
  change (x_bounds (x_of m)) with (x_bound (m_bounds m)) in *. destruct (m_bounds m) as [[ns u]|]; [|discriminate].
  unfold outcome, final, xadd_bound_U, abind, get, lift, upd in *. cbn in *. unfold uv_vstack in *.
  destruct u; destruct (_ =? _); cbn in *; try discriminate; injection H as <-; split; auto; eexists; split; reflexivity.
Qed.
Print Assumptions C46_failed_support.

Theorem C46_failed_load : forall F (NF : Num F) (m : model F) n f e,
  outcome (xcall (AddForce n f)) (x_of m) = Err e ->
  e = ValueError /\ exists h, m_forces m = Some h /\
    final (xcall (AddForce n f)) (x_of m) = put_forces (ForceX (Some (e_nodes h ++ [n])) (Some (e_width h, e_rows h))) (x_of m).
Proof.
  intros F NF m n f e H. cbn [xcall] in *. unfold in_forces in *. rewrite zoom_outcome in H. rewrite zoom_final by apply put_forces_same.
  change (x_forces (x_of m)) with (x_force (m_forces m)) in *. destruct (m_forces m) as [[ns w rows]|]; [|discriminate].
  unfold outcome, final, xadd_force, abind, get, lift, upd, raise in *. cbn in *.
  destruct (_ =? _); cbn in *; try discriminate; injection H as <-; split; auto; eexists; split; reflexivity.
Qed.
Print Assumptions C46_failed_load.

(** Deleting the label again undoes the failed call, although the deletion itself
    raises IndexError. *)
Theorem C46_undo_support : forall F (NF : Num F) (m : model F) ns w rows n v e t,
  m_bounds m = Some (BoundH ns (UMat w rows)) -> length rows = length ns -> ~ In n ns ->
  outcome (xcall (AddBound n v)) (x_of m) = Err e -> t = final (xcall (AddBound n v)) (x_of m) ->
  outcome (in_bounds (xdel_bound_U n)) t = Err IndexError /\ final (in_bounds (xdel_bound_U n)) t = x_of m.
Proof.
  intros F NF m ns w rows n v e t Eb Hl Hn H ->. destruct (C46_failed_support _ _ _ _ _ _ H) as (_ & h & Eh & ->).
  rewrite Eb in Eh. injection Eh as <-. cbn [b_nodes b_vals]. unfold in_bounds. rewrite zoom_outcome, zoom_final by apply put_bounds_same.
  cbn [put_bounds x_bounds]. unfold outcome, final, xdel_bound_U, abind, get, lift, upd. cbn [xb_nodes xb_vals fst snd last].
  rewrite (positions_snoc_fresh n ns Hn). unfold del_rows. cbn [forallb]. rewrite app_length. cbn [length].
  replace (length ns <? length ns + 1) with true by (symmetry; apply Nat.ltb_lt; lia). cbn [andb]. rewrite delete_snoc.
  cbn [uv_delete forallb]. rewrite Hl, Nat.ltb_irrefl. cbn. split; auto. destruct m. cbn in *. subst. reflexivity.
Qed.
Print Assumptions C46_undo_support.

Theorem C46_undo_load : forall F (NF : Num F) (m : model F) h n f e t,
  m_forces m = Some h -> length (e_rows h) = length (e_nodes h) -> ~ In n (e_nodes h) ->
  outcome (xcall (AddForce n f)) (x_of m) = Err e -> t = final (xcall (AddForce n f)) (x_of m) ->
  outcome (in_forces (xdel_force n)) t = Err IndexError /\ final (in_forces (xdel_force n)) t = x_of m.
Proof.
  intros F NF m [ns w rows] n f e t Eb Hl Hn H ->. cbn [e_nodes e_rows] in *. destruct (C46_failed_load _ _ _ _ _ _ H) as (_ & h & Eh & ->).
  rewrite Eb in Eh. injection Eh as <-. cbn [e_nodes e_rows e_width]. unfold in_forces. rewrite zoom_outcome, zoom_final by apply put_forces_same.
  cbn [put_forces x_forces]. unfold outcome, final, xdel_force, abind, get, lift, upd. cbn [xf_nodes xf_rows fst snd last].
  rewrite (positions_snoc_fresh n ns Hn). unfold del_rows. cbn [forallb]. rewrite app_length. cbn [length].
  replace (length ns <? length ns + 1) with true by (symmetry; apply Nat.ltb_lt; lia). cbn [andb]. rewrite delete_snoc.
  cbn [uv_delete forallb]. rewrite Hl, Nat.ltb_irrefl. cbn. split; auto. destruct m. cbn in *. subst. reflexivity.
Qed.
Print Assumptions C46_undo_load.

(** Not interrupted, the definition calls taken statement by statement do what the
    calls of Handlers.v do in one step: the same exception, or the same tables. *)
Theorem C46_same_adds : forall F (NF : Num F) c (m : model F),
  match does m c with
  | Ok m1 => outcome (xcall c) (x_of m) = Ok tt /\ final (xcall c) (x_of m) = x_of m1
  | Err e => outcome (xcall c) (x_of m) = Err e
  | Timeout => outcome (xcall c) (x_of m) = Timeout
  end.
Proof.
  intros F NF c [nh eh bh fh st u]. destruct c as [l x|n v|n f|E]; cbn [does xcall m_nodes m_bounds m_forces m_elems].
  - pose proof (xadd_node_follows nh l x) as K. unfold in_nodes. rewrite zoom_outcome. rewrite zoom_final by apply put_nodes_same. destruct K as [K1 K2].
    cbn [x_of x_nodes m_nodes]. rewrite K1, K2. split; reflexivity.
  - pose proof (xadd_bound_follows bh n v) as K. unfold in_bounds. rewrite zoom_outcome. rewrite zoom_final by apply put_bounds_same. unfold follows, goes in K.
    destruct (add_bound_U bh n v); cbn [bind x_of x_bounds m_bounds] in *; [|exact K|exact K]. destruct K as [-> ->]. split; reflexivity.
  - pose proof (xadd_force_follows fh n f) as K. unfold in_forces. rewrite zoom_outcome. rewrite zoom_final by apply put_forces_same. unfold follows, goes in K.
    destruct (add_force fh n f); cbn [bind x_of x_forces m_forces] in *; [|exact K|exact K]. destruct K as [-> ->]. split; reflexivity.
  - pose proof (xadd_element_follows eh E) as K. unfold in_elems. rewrite zoom_outcome. rewrite zoom_final by (intros []; reflexivity). unfold follows, goes in K.
    destruct (add_element eh E); cbn [bind x_of x_elems m_elems] in *; [|exact K|exact K]. destruct K as [-> ->]. split; reflexivity.
Qed.
Print Assumptions C46_same_adds.

(** The deletions likewise, for tables with one row per label. *)
Theorem C46_same_deletes : forall F (NF : Num F) l (n : option (nodeH F)) (b : option boundH) (f : option (forceH F)) (e : option (elemH F)),
  (forall h, n = Some h -> length (n_coords h) = length (n_labels h)) ->
  (forall h, f = Some h -> length (e_rows h) = length (e_nodes h)) ->
  (forall h, e = Some h -> length (el_conns h) = length (el_labels h) /\ length (t_rows (el_mat h)) = length (el_labels h) /\
    length (t_rows (el_geo h)) = length (el_labels h)) ->
  match del_node n l with
  | Ok n1 => outcome (xdel_node l) (x_node n) = Ok tt /\ final (xdel_node l) (x_node n) = x_node n1
  | r => outcome (xdel_node l) (x_node n) = (_ <- r ;; Ok tt)
  end /\
  match del_bound_U b l with
  | Ok b1 => outcome (xdel_bound_U l) (x_bound b) = Ok tt /\ final (xdel_bound_U l) (x_bound b) = x_bound b1
  | r => outcome (xdel_bound_U l) (x_bound b) = (_ <- r ;; Ok tt)
  end /\
  match del_force f l with
  | Ok f1 => outcome (xdel_force l) (x_force f) = Ok tt /\ final (xdel_force l) (x_force f) = x_force f1
  | r => outcome (xdel_force l) (x_force f) = (_ <- r ;; Ok tt)
  end /\
  match del_element e l with
  | Ok e1 => outcome (xdel_element l) e = Ok tt /\ final (xdel_element l) e = e1
  | r => outcome (xdel_element l) e = (_ <- r ;; Ok tt)
  end.
Proof.
  intros F NF l n b f e Hn Hf He.
  pose proof (xdel_node_follows n l Hn) as K1. pose proof (xdel_bound_follows b l) as K2.
  pose proof (xdel_force_follows f l Hf) as K3. pose proof (xdel_element_follows e l He) as K4. unfold follows, goes in *.
  split; [destruct (del_node n l); cbn [bind]; tauto|]. split; [destruct (del_bound_U b l); cbn [bind]; tauto|].
  split; [destruct (del_force f l); cbn [bind]; tauto|destruct (del_element e l); cbn [bind]; tauto].
Qed.
Print Assumptions C46_same_deletes.

(** ** C47 interrupted build *)
(** [build] is interrupted at any point.  If no row of the three tables is then under
    another label than the one it was given for, a second [build] ends in the state
    the first would have reached. *)
Theorem C47_resume : forall F (NF : Num F) argsortZ (m m1 : model F) ns bs fs s,
  argsort_ok argsortZ ->
  nodes_are (m_nodes m) ns -> bounds_are (m_bounds m) bs -> forces_are (m_forces m) fs ->
  NoDup (map fst ns) -> 2 <= length ns -> build argsortZ m = Ok m1 ->
  In s (visits (xbuild argsortZ) (x_of m)) -> intact ns bs fs s ->
  outcome (xbuild argsortZ) s = Ok tt /\ final (xbuild argsortZ) s = x_of m1.
Proof. intros. eapply resume; eauto. Qed.
Print Assumptions C47_resume.

(** With three nodes or more, every point of interruption is of one of three kinds:
    a second [build] ends as the first would have; or it raises, because a label has
    no row yet; or the labels of a table are sorted and its rows are not. *)
Theorem C47_points : forall F (NF : Num F) argsortZ (m m1 : model F) ns bs fs s,
  argsort_ok argsortZ ->
  nodes_are (m_nodes m) ns -> bounds_are (m_bounds m) bs -> forces_are (m_forces m) fs ->
  NoDup (map fst ns) -> 3 <= length ns -> build argsortZ m = Ok m1 ->
  In s (visits (xbuild argsortZ) (x_of m)) ->
  (outcome (xbuild argsortZ) s = Ok tt /\ final (xbuild argsortZ) s = x_of m1) \/
  (label_left s /\ exists e, outcome (xbuild argsortZ) s = Err e) \/
  half_sorted ns bs fs m1 s.
Proof. intros. eapply points; eauto. lia. Qed.
Print Assumptions C47_points.

(** If the tables were given completely and in the order of the labels, every point
    of interruption is harmless. *)
Theorem C47_ordered : forall F (NF : Num F) argsortZ (m m1 : model F) ns bs fs s,
  argsort_ok argsortZ ->
  nodes_are (m_nodes m) ns -> bounds_are (m_bounds m) bs -> forces_are (m_forces m) fs ->
  Sorting.Sorted.StronglySorted Z.lt (map fst ns) -> map fst bs = map fst ns -> map fst fs = map fst ns ->
  2 <= length ns -> build argsortZ m = Ok m1 ->
  In s (visits (xbuild argsortZ) (x_of m)) ->
  outcome (xbuild argsortZ) s = Ok tt /\ final (xbuild argsortZ) s = x_of m1.
Proof. intros. eapply sorted_resumes; eauto. apply sorted_lt_NoDup. auto. Qed.
Print Assumptions C47_ordered.

(** So is every point of a later [build] of a model that has been built, and run or
    not, before. *)
Theorem C47_rebuild : forall F (NF : Num F) argsortZ (m m1 m2 : model F) ns bs fs u s,
  argsort_ok argsortZ ->
  nodes_are (m_nodes m) ns -> bounds_are (m_bounds m) bs -> forces_are (m_forces m) fs ->
  NoDup (map fst ns) -> 2 <= length ns -> build argsortZ m = Ok m1 ->
  m2 = Model (m_nodes m1) (m_elems m1) (m_bounds m1) (m_forces m1) (m_set m1) u ->
  In s (visits (xbuild argsortZ) (x_of m2)) ->
  outcome (xbuild argsortZ) s = Ok tt /\ final (xbuild argsortZ) s = x_of m1.
Proof. intros. subst m2. eapply (rebuild argsortZ); eauto. Qed.
Print Assumptions C47_rebuild.

(** ** C48 interrupted run *)
(** A run, completed, raising or interrupted anywhere, does not touch nodes, bars,
    supports, loads or settings ... *)
Theorem C48_definition_kept : forall F (NF : Num F) argsortF solve fuel (s t : xmodel F),
  In t (visits (xrun argsortF solve fuel) s) -> same_input s t.
Proof. intros F NF AF S fuel s t. apply xrun_frame. Qed.
Print Assumptions C48_definition_kept.

(** ... so [build] afterwards does what it would have done before the run. *)
Theorem C48_build_after : forall F (NF : Num F) argsortZ argsortF solve fuel (m : model F) t,
  In t (visits (xrun argsortF solve fuel) (x_of m)) ->
  match build argsortZ m with
  | Ok m1 => outcome (xbuild argsortZ) t = Ok tt /\ final (xbuild argsortZ) t = x_of m1
  | Err e => outcome (xbuild argsortZ) t = Err e
  | Timeout => False
  end.
Proof.
  intros F NF A AF S fuel m t Hi. destruct (xbuild_upto A _ _ (xrun_frame AF S fuel _ _ Hi)) as [K1 K2].
  pose proof (xbuild_follows A m) as K. unfold follows in K. destruct (build A m) as [m1| |].
  - destruct K as [J1 J2]. rewrite J2 in K1. rewrite <- K1, <- (K2 tt J2). auto.
  - congruence.
  - exact (xbuild_nt A _ K).
Qed.
Print Assumptions C48_build_after.

(** A run of a model just built is interrupted.  The results recorded by then begin
    with those of the steps that were finished, and there is one end load factor for
    each of these. *)
Theorem C48_interrupted : forall F (NF : Num F) argsortZ argsortF solve fuel (m0 m : model F) t,
  build argsortZ m0 = Ok m -> In t (visits (xrun argsortF solve fuel) (x_of m)) ->
  exists k mk uk rest, k <= Z.to_nat (s_nsteps (m_set m)) /\ completed argsortF solve fuel k m mk /\ m_built mk = Some uk /\
    x_res t = Some (u_R uk ++ rest, u_lpf_end uk).
Proof.
  intros F NF A AF S fuel m0 m t Hb Hi.
  destruct (build_inv A m0 m Hb) as (nh0 & eh & nh & bh & fh & D0 & D1 & an & _ & _ & _ & _ & _ & _ & _ & _ & _ & _ & Em).
  edestruct (run_places AF S m) as [P _]; [rewrite Em; reflexivity|reflexivity|]. exact (P t Hi).
Qed.
Print Assumptions C48_interrupted.

(** If it raises, this was in the step after these: a run of one step more raises the
    same, and at most one entry follows their results. *)
Theorem C48_raised : forall F (NF : Num F) argsortZ argsortF solve fuel (m0 m : model F) e,
  build argsortZ m0 = Ok m -> outcome (xrun argsortF solve fuel) (x_of m) = Err e ->
  exists k mk uk rest, completed argsortF solve fuel k m mk /\ m_built mk = Some uk /\
    run argsortF solve (with_nsteps (Z.of_nat (k + 1)) m) fuel = Err e /\
    x_res (final (xrun argsortF solve fuel) (x_of m)) = Some (u_R uk ++ rest, u_lpf_end uk) /\ length rest <= 1.
Proof.
  intros F NF A AF S fuel m0 m e Hb He.
  destruct (build_inv A m0 m Hb) as (nh0 & eh & nh & bh & fh & D0 & D1 & an & _ & _ & _ & _ & _ & _ & _ & _ & _ & _ & Em).
  edestruct (run_places AF S m) with (fuel := fuel) as [_ P]; [rewrite Em; reflexivity|reflexivity|].
  rewrite He in P. destruct (P e eq_refl) as (k & mk & uk & rest & P1 & P2 & P3 & P4 & P5). exists k, mk, uk, rest. auto.
Qed.
Print Assumptions C48_raised.

(** The run of Run.v and the one of Crash.v agree: [final] and [outcome] are what
    [run] gives, also for [build]. *)
Theorem C48_same_methods : forall F (NF : Num F) argsortZ argsortF solve fuel (m : model F),
  match run argsortF solve m fuel with
  | Ok (m2, _) => outcome (xrun argsortF solve fuel) (x_of m) = Ok tt /\ final (xrun argsortF solve fuel) (x_of m) = x_of m2
  | Err e => outcome (xrun argsortF solve fuel) (x_of m) = Err e
  | Timeout => outcome (xrun argsortF solve fuel) (x_of m) = Timeout
  end /\
  match build argsortZ m with
  | Ok m1 => outcome (xbuild argsortZ) (x_of m) = Ok tt /\ final (xbuild argsortZ) (x_of m) = x_of m1
  | Err e => outcome (xbuild argsortZ) (x_of m) = Err e
  | Timeout => outcome (xbuild argsortZ) (x_of m) = Timeout
  end.
Proof.
  intros F NF A AF S fuel m. pose proof (xrun_follows AF S m fuel) as K1. pose proof (xbuild_follows A m) as K2. unfold follows, goes in *.
  split; [destruct (run AF S m fuel) as [[m2 out]| |]|destruct (build A m)]; cbn [fst] in *; tauto.
Qed.
Print Assumptions C48_same_methods.

(** ** Cases *)
Lemma tried_first {F} `{NF : Num F} c att (s t : xmodel F) :
  outcome (xcall c) s = Ok tt -> tried att (final (xcall c) s) t -> tried ((c, true) :: att) s t.
Proof.
  intros Hc Ht. remember (final (xcall c) s) as s' eqn:Es. induction Ht as [s'|att s' t c' Ht IH Ho|att s' t c' t' Ht IH Hi].
  - subst. apply (tried_done [] s s); [constructor|auto].
  - apply (tried_done (_ :: att)); auto.
  - eapply (tried_stop (_ :: att)); eauto.
Qed.
Lemma tried_leave {F} `{NF : Num F} c att (s s' t : xmodel F) :
  In s' (visits (xcall c) s) -> tried att s' t -> tried ((c, false) :: att) s t.
Proof.
  intros Hc Ht. induction Ht as [s'|att s' t c' Ht IH Ho|att s' t c' t' Ht IH Hi].
  - apply (tried_stop [] s s c s'); [constructor|auto].
  - apply (tried_done (_ :: att)); auto.
  - eapply (tried_stop (_ :: att)); eauto.
Qed.
Lemma does_all_aligned {F} `{NF : Num F} cs (m m' : model F) : aligned m -> foldM does cs m = Ok m' -> aligned m'.
Proof.
  revert m. induction cs as [|c cs IH]; cbn; intros m Ha H; [injection H as <-; auto|].
  apply bind_ok in H. destruct H as (m1 & H1 & H). eapply IH; [|eauto]. eapply does_aligned; eauto.
Qed.

(** C46: a session with an interrupted [add_node] that is tried again, a load call
    interrupted after its last statement, and a bar; [build] returns. *)
Definition xc_att : list (call fix_ * bool) :=
  [(AddNode 1 (V3 f0 f0 f0), true); (AddNode 5 (V3 (q 3 1) (q 8 1) f0), false); (AddNode 5 (V3 (q 3 1) (q 8 1) f0), true);
   (AddNode 2 (V3 (q 3 1) (q 4 1) f0), true); (AddBound 1 [0; 0; 0]%Z, true); (AddBound 5 [0; 0; 0]%Z, true);
   (AddForce 2 [f0; q (-1) 1; f0], false);
   (AddElement (Elem 7 (1, 2)%Z 1 1 [PF (q 1 1)] [PF f1]), true)].

Example C46_meets : exists s, tried xc_att (x_of (fresh (xr_settings 8 8 false false None 8 3 2))) s /\
  outcome (xbuild argsort_ins) s = Ok tt /\ 2 <= supports_given xc_att /\ (forall E, ~ In (AddElement E, false) xc_att).
Proof.
  eexists. split.
  - apply tried_first; [reflexivity|]. eapply tried_leave; [left; reflexivity|]. do 4 (apply tried_first; [reflexivity|]).
    eapply tried_leave; [right; right; left; reflexivity|]. apply tried_first; [reflexivity|]. apply tried_nil.
  - split; [vm_compute; reflexivity|]. split; [vm_compute; lia|]. unfold xc_att. cbn [In]. intros E H. repeat destruct H as [H|H]; discriminate || auto.
Qed.

(** Without the condition on the supports C46 fails: two nodes, one support row, and
    a second support call that raised.  [build] returns, and the model object is
    that of no choice of the calls: the three values given for the first node are
    read as a table of two rows. *)
Theorem C46_one_support_refuted : exists st att (s : xmodel fix_) h,
  tried att (x_of (fresh st)) s /\ outcome (xbuild argsort_ins) s = Ok tt /\
  supports_given att = 1 /\ (forall E, ~ In (AddElement E, false) att) /\
  (forall cs m, took att cs -> foldM does cs (fresh st) = Ok m -> s <> x_of m) /\
  x_bounds (final (xbuild argsort_ins) s) = x_bound (Some h) /\ b_nodes h = [1; 2]%Z /\ b_vals h = UFlat [0; 0]%Z.
Proof.
  pose (att := [(AddNode 1 (V3 f0 f0 f0), true); (AddNode 2 (V3 (q 3 1) (q 4 1) f0), true); (AddForce 2 [f0; q (-1) 1; f0], true);
     (AddElement (Elem 7 (1, 2)%Z 1 1 [PF (q 1 1)] [PF f1]), true);
     (AddBound 1 [0; 0; 0]%Z, true); (AddBound 2 [0; 0]%Z, false)] : list (call fix_ * bool)).
  exists (xr_settings 8 8 false false None 8 3 2), att. eexists. exists (BoundH [1; 2]%Z (UFlat [0; 0]%Z)).
  repeat match goal with |- _ /\ _ => split end.
  - do 5 (apply tried_first; [reflexivity|]). eapply tried_leave; [right; left; reflexivity|]. apply tried_nil.
  - vm_compute. reflexivity.
  - reflexivity.
  - intros E. unfold att. cbn [In]. intros H. repeat destruct H as [H|H]; discriminate || auto.
  - intros cs m _ Hm Es. assert (Ha : aligned m). { eapply does_all_aligned; [|exact Hm]. repeat split; discriminate. }
    destruct Ha as (_ & Ha & _). apply (f_equal (fun t => (xb_nodes (x_bounds t), xb_vals (x_bounds t)))) in Es.
    cbn [x_of x_bounds put_bounds xb_nodes xb_vals] in Es. destruct (m_bounds m) as [h|]; [|discriminate]. specialize (Ha h eq_refl). cbn in Es. injection Es as E1 E2.
    rewrite <- E1, <- E2 in Ha. discriminate.
  - vm_compute. reflexivity.
  - reflexivity.
  - reflexivity.
Qed.
Print Assumptions C46_one_support_refuted.

(** Nor does it extend to [del_node]: interrupted between its two statements, the
    later [build] returns with the last node at the place of the deleted one. *)
Theorem C46_del_node_refuted : exists (m : model fix_) t,
  (exists ns, nodes_are (m_nodes m) ns /\ In (3%Z, V3 (q 3 1) f0 f0) ns /\ In (2%Z, V3 (q 2 1) f0 f0) ns /\ NoDup (map fst ns)) /\
  In t (visits (in_nodes (xdel_node 2%Z)) (x_of m)) /\ outcome (xbuild argsort_ins) t = Ok tt /\
  x_nodes (final (xbuild argsort_ins) t) = NodeX (Some [1; 3]%Z) (Some [V3 f0 f0 f0; V3 (q 2 1) f0 f0]).
Proof.
  exists (Model (Some (NodeH [1; 2; 3]%Z [V3 f0 f0 f0; V3 (q 2 1) f0 f0; V3 (q 3 1) f0 f0])) (Some xr_elems) None
    (Some (ForceH [1]%Z 3 [[f0; f0; f0]])) (xr_settings 8 8 false false None 8 3 2) None).
  eexists. split; [|split; [right; left; reflexivity|split; vm_compute; reflexivity]].
  exists [(1, V3 f0 f0 f0); (2, V3 (q 2 1) f0 f0); (3, V3 (q 3 1) f0 f0)]%Z. split; [split; reflexivity|].
  split; [right; right; left; reflexivity|]. split; [right; left; reflexivity|]. cbn [map fst]. repeat constructor; cbn [In]; intros H; repeat destruct H as [H|H]; discriminate || auto.
Qed.
Print Assumptions C46_del_node_refuted.

(** Undo: two supported nodes; the row given for node 3 has two values only. *)
Example C46_undo_meets : exists (m : model fix_) ns w rows, m_bounds m = Some (BoundH ns (UMat w rows)) /\ length rows = length ns /\
  ~ In 3%Z ns /\ outcome (xcall (AddBound 3 [0; 0]%Z)) (x_of m) = Err ValueError /\
  final (xcall (AddBound 3 [0; 0]%Z)) (x_of m) <> x_of m.
Proof.
  exists (Model None None (Some (BoundH [1; 2]%Z (UMat 3 [[0; 0; 0]; [0; 0; 1]]%Z))) None (xr_settings 8 8 false false None 8 3 2) None).
  do 3 eexists. split; [reflexivity|]. split; [reflexivity|]. split; [cbn; intros H; repeat destruct H as [H|H]; discriminate || auto|].
  split; [reflexivity|]. intros E. apply (f_equal (fun s => xb_nodes (x_bounds s))) in E. discriminate.
Qed.
Example C46_undo_load_meets : exists (m : model fix_) h, m_forces m = Some h /\ length (e_rows h) = length (e_nodes h) /\
  ~ In 3%Z (e_nodes h) /\ outcome (xcall (AddForce 3 [f1])) (x_of m) = Err ValueError.
Proof.
  exists (xr_at (xr_settings 8 8 false false None 8 3 2)). eexists. split; [reflexivity|]. split; [reflexivity|].
  split; [cbn; intros H; repeat destruct H as [H|H]; discriminate || auto|reflexivity].
Qed.

(** C47: the sample truss, labels 1, 5, 2.  Between the two halves of the sort of the
    node table the second [build] returns with two nodes exchanged; one state on, it
    is repaired. *)
Theorem C47_half_sorted_refuted : exists (m m1 : model fix_) s,
  described m xr_ns xr_ms xr_bs xr_fs /\ build argsort_ins m = Ok m1 /\
  In s (visits (xbuild argsort_ins) (x_of m)) /\
  outcome (xbuild argsort_ins) s = Ok tt /\
  m_nodes m1 = Some (NodeH [1; 2; 5]%Z [V3 f0 f0 f0; V3 (q 3 1) (q 4 1) f0; V3 (q 3 1) (q 8 1) f0]) /\
  x_nodes (final (xbuild argsort_ins) s) = NodeX (Some [1; 2; 5]%Z) (Some [V3 f0 f0 f0; V3 (q 3 1) (q 8 1) f0; V3 (q 3 1) (q 4 1) f0]).
Proof.
  exists (xr_at (xr_settings 8 8 false false None 8 3 2)). 
  destruct (build argsort_ins (xr_at (xr_settings 8 8 false false None 8 3 2))) as [m1| |] eqn:Eb; [|exfalso; vm_compute in Eb; discriminate..].
  exists m1, (nth 4 (visits (xbuild argsort_ins) (x_of (xr_at (xr_settings 8 8 false false None 8 3 2)))) (x_of m1)).
  split; [apply xr_described|]. split; [reflexivity|]. split; [apply nth_In, Nat.leb_le; vm_compute; reflexivity|].
  split; [vm_compute; reflexivity|]. split; [|vm_compute; reflexivity].
  vm_compute in Eb. injection Eb as <-. vm_compute. reflexivity.
Qed.
Print Assumptions C47_half_sorted_refuted.

Example C47_meets : exists (m m1 : model fix_) s1 s2,
  nodes_are (m_nodes m) xr_ns /\ bounds_are (m_bounds m) xr_bs /\ forces_are (m_forces m) xr_fs /\
  NoDup (map fst (xr_ns : list (Z * v3 fix_))) /\ 3 <= length (xr_ns : list (Z * v3 fix_)) /\ build argsort_ins m = Ok m1 /\
  In s1 (visits (xbuild argsort_ins) (x_of m)) /\ intact xr_ns xr_bs xr_fs s1 /\
  xf_nodes (x_forces s1) = Some [2; 1]%Z /\
  In s2 (visits (xbuild argsort_ins) (x_of m)) /\ outcome (xbuild argsort_ins) s2 = Err IndexError.
Proof.
  exists (xr_at (xr_settings 8 8 false false None 8 3 2)). 
  destruct (build argsort_ins (xr_at (xr_settings 8 8 false false None 8 3 2))) as [m1| |] eqn:Eb; [|exfalso; vm_compute in Eb; discriminate..].
  exists m1, (nth 9 (visits (xbuild argsort_ins) (x_of (xr_at (xr_settings 8 8 false false None 8 3 2)))) (x_of m1)),
    (nth 8 (visits (xbuild argsort_ins) (x_of (xr_at (xr_settings 8 8 false false None 8 3 2)))) (x_of m1)).
  destruct (xr_described (xr_settings 8 8 false false None 8 3 2 : settings fix_)) as (D1 & D3 & D4 & _ & _ & D6 & _).
  split; [exact D1|]. split; [exact D3|]. split; [exact D4|]. split; [exact D6|]. split; [cbn; lia|]. split; [reflexivity|].
  split; [apply nth_In, Nat.leb_le; vm_compute; reflexivity|]. split; [|split; [vm_compute; reflexivity|]].
  2:{ split; [apply nth_In, Nat.leb_le; vm_compute; reflexivity|]. vm_compute. reflexivity. }
  split; [|split].
  - exists [(1%Z, V3 f0 f0 f0); (2%Z, V3 (q 3 1) (q 4 1) f0); (5%Z, V3 (q 3 1) (q 8 1) f0)]. split; [vm_compute; reflexivity|].
    intros p. unfold xr_ns. cbn [In]. tauto.
  - exists (Some (BoundH [1; 2; 5]%Z (UMat 3 [[0; 0; 0]; [1; 1; 0]; [0; 0; 0]]%Z))), [(1, [0; 0; 0]); (2, [1; 1; 0]); (5, [0; 0; 0])]%Z.
    split; [vm_compute; reflexivity|]. split; [split; [reflexivity|]; split; [reflexivity|]; repeat constructor|].
    intros p. unfold xr_bs. cbn [In]. tauto.
  - exists (Some (ForceH [2; 1]%Z 6 [[f0; q (-1) 1; f0; q 1 1; f0; f0]; repeat f0 6])), [(2%Z, [f0; q (-1) 1; f0; q 1 1; f0; f0]); (1%Z, repeat f0 6)].
    split; [vm_compute; reflexivity|]. split; [split; [reflexivity|]; split; [reflexivity|]; repeat constructor|].
    cbn [In]. intros p [<-|[<-|[]]]; [left; left; reflexivity|right]. split; [intros [H|[]]; discriminate|]. cbn [snd repeat]. repeat constructor.
Qed.

(** C47_ordered: the same truss given in the order of the labels with full tables. *)
Example C47_ordered_meets : exists (m m1 : model fix_) bs fs, 
  Sorting.Sorted.StronglySorted Z.lt (map fst [(1%Z, V3 f0 f0 f0); (2%Z, V3 (q 3 1) (q 4 1) f0)]) /\
  nodes_are (m_nodes m) [(1%Z, V3 f0 f0 f0); (2%Z, V3 (q 3 1) (q 4 1) f0)] /\ bounds_are (m_bounds m) bs /\ forces_are (m_forces m) fs /\
  map fst bs = [1; 2]%Z /\ map fst fs = [1; 2]%Z /\ build argsort_ins m = Ok m1.
Proof.
  set (m := Model (Some (NodeH [1; 2]%Z [V3 f0 f0 f0; V3 (q 3 1) (q 4 1) f0])) (Some (ElemH [7]%Z [(1, 2)]%Z [1]%Z [1]%Z
    (Tab false 1 [[q 1 1]]) (Tab false 1 [[f1]]))) (Some (BoundH [1; 2]%Z (UMat 3 [[0; 0; 0]; [0; 1; 0]]%Z)))
    (Some (ForceH [1; 2]%Z 3 [[f0; f0; f0]; [f0; f1; f0]])) (xr_settings 8 8 false false None 8 3 1) None).
  exists m. destruct (build argsort_ins m) as [m1| |] eqn:Eb; [|exfalso; vm_compute in Eb; discriminate..].
  exists m1, [(1, [0; 0; 0]); (2, [0; 1; 0])]%Z, [(1%Z, [f0; f0; f0]); (2%Z, [f0; f1; f0])].
  split; [repeat constructor|]. split; [split; reflexivity|]. split; [split; [reflexivity|]; split; [reflexivity|]; repeat constructor|].
  split; [split; [reflexivity|]; split; [reflexivity|]; repeat constructor|]. repeat split.
Qed.

(** C48: three steps with loads for two.  The third step raises; two steps are
    recorded, three increments each, with their end load factors. *)
Example C48_meets : exists m e mk uk out,
  build argsort_ins (xr_at (xr_settings 8 8 false false None 8 3 3)) = Ok m /\
  outcome (xrun argsort_fx gauss 40) (x_of m) = Err e /\
  run argsort_fx gauss (with_nsteps 2 m) 40 = Ok (mk, out) /\ m_built mk = Some uk /\ length (u_R uk) = 7 /\ length (u_lpf_end uk) = 2.
Proof.
  destruct (build argsort_ins (xr_at (xr_settings 8 8 false false None 8 3 3))) as [m| |] eqn:Eb; [|exfalso; vm_compute in Eb; discriminate..].
  assert (T : match build argsort_ins (xr_at (xr_settings 8 8 false false None 8 3 3)) with
              | Ok m => match outcome (xrun argsort_fx gauss 40) (x_of m), run argsort_fx gauss (with_nsteps 2 m) 40 with
                        | Err _, Ok (mk, _) => on_built false (fun u => (length (u_R u) =? 7) && (length (u_lpf_end u) =? 2)) mk
                        | _, _ => false end
              | _ => false end = true) by (vm_compute; reflexivity).
  rewrite Eb in T. destruct (outcome _ _) as [|e|] eqn:Eo; try discriminate.
  destruct (run _ _ _ _) as [[mk out]| |] eqn:Er; try discriminate. unfold on_built in T.
  destruct (m_built mk) as [uk|] eqn:Eu; [|discriminate]. apply andb_true_iff in T. destruct T as [T1 T2].
  apply Nat.eqb_eq in T1, T2. exists m, e, mk, uk, out. auto 10.
Qed.

Example C46_same_deletes_meets : exists (n : nodeH fix_) (f : forceH fix_) (e : elemH fix_) e1,
  length (n_coords n) = length (n_labels n) /\ length (e_rows f) = length (e_nodes f) /\
  length (el_conns e) = length (el_labels e) /\ length (t_rows (el_mat e)) = length (el_labels e) /\ length (t_rows (el_geo e)) = length (el_labels e) /\
  del_element (Some e) 7 = Ok (Some e1) /\ el_labels e1 = [9]%Z /\ t_rows (el_geo e1) = [[f1]].
Proof.
  exists (NodeH [1; 2]%Z [V3 f0 f0 f0; V3 (q 2 1) f0 f0]), (ForceH [1]%Z 3 [[f0; f0; f0]]), xr_elems. eexists.
  repeat split.
Qed.
