(** * Lemmas behind C02 - C04, C08 and C09 *)
From Coq Require Import List ZArith Bool Arith Lia Permutation Sorting.Sorted.
Import ListNotations.
From Verif Require Import Num Vec Handlers Material Analysis Truss Equil Solver Run ListFacts SpecBuild BuildFacts BuildProps.

(** ** A sort routine *)
Fixpoint ins_by (key : nat -> Z) (i : nat) (l : list nat) : list nat :=
  match l with
  | [] => [i]
  | j :: l' => if (key i <=? key j)%Z then i :: l else j :: ins_by key i l'
  end.
Definition isort_by (key : nat -> Z) (l : list nat) : list nat := fold_right (ins_by key) [] l.
Definition argsort_ins (l : list Z) : list nat := isort_by (fun i => nth i l 0%Z) (seq 0 (length l)).

Lemma ins_by_perm key i l : Permutation (ins_by key i l) (i :: l).
Proof.
  induction l as [|j l IH]; cbn; auto. destruct (_ <=? _)%Z; auto.
  rewrite IH. apply perm_swap.
Qed.

Lemma ins_by_sorted key i l : StronglySorted (fun a b => (key a <= key b)%Z) l ->
  StronglySorted (fun a b => (key a <= key b)%Z) (ins_by key i l).
Proof.
  induction l as [|j l IH]; cbn; intros H; [repeat constructor|]. inv H.
  destruct (Z.leb_spec (key i) (key j)).
  - constructor; [constructor; auto|]. constructor; [lia|]. rewrite Forall_forall in *. intros x Hx. specialize (H3 x Hx). lia.
  - constructor; auto. rewrite Forall_forall in *. intros x Hx. apply (Permutation_in _ (ins_by_perm key i l)) in Hx.
    destruct Hx as [<-|Hx]; [lia|auto].
Qed.

Lemma argsort_ins_ok : argsort_ok argsort_ins.
Proof.
  intros l. unfold argsort_ins. set (key := fun i => nth i l 0%Z). generalize (seq 0 (length l)). intros ix. split.
  - induction ix as [|i ix IH]; cbn; auto. rewrite ins_by_perm, IH. auto.
  - assert (H : StronglySorted (fun a b => (key a <= key b)%Z) (isort_by key ix)).
    { induction ix as [|i ix IH]; cbn; [constructor|]. apply ins_by_sorted. exact IH. }
    induction H as [|a m Hs IH HF]; cbn; constructor; auto. rewrite Forall_forall in *.
    intros x Hx. apply in_map_iff in Hx. destruct Hx as (y & <- & Hy). apply (HF y Hy).
Qed.

(** ** Deleting *)
Lemma delete_at_map {A B} (f : A -> B) (a : list A) idx : delete_at (map f a) idx = map f (delete_at a idx).
Proof.
  unfold delete_at. rewrite map_length. generalize (seq 0 (length a)). revert a.
  induction a as [|x a IH]; intros [|i s]; cbn; auto. destruct (negb _); cbn; rewrite IH; auto.
Qed.

Lemma delete_rows {A} (rows : list (Z * A)) l :
  delete_at rows (positions l (map fst rows)) = filter (fun p => negb (Z.eqb l (fst p))) rows.
Proof.
  apply delete_at_filter. intros i x Hx. rewrite negb_involutive.
  destruct (Z.eqb_spec l (fst x)) as [E|E].
  - apply existsb_exists. exists i. split; [|apply Nat.eqb_refl]. apply positions_In. rewrite nth_error_map, Hx. cbn. congruence.
  - destruct (existsb _ _) eqn:Ee; auto. apply existsb_exists in Ee. destruct Ee as (j & Hj & Ej). apply Nat.eqb_eq in Ej. subst j.
    apply positions_In in Hj. rewrite nth_error_map, Hx in Hj. cbn in Hj. congruence.
Qed.

Lemma positions_snoc_fresh l labels : ~ In l labels -> positions l (labels ++ [l]) = [length labels].
Proof.
  induction labels as [|a labels IH]; intros H; cbn [app length].
  - rewrite positions_cons, Z.eqb_refl. reflexivity.
  - rewrite positions_cons. destruct (Z.eqb_spec l a) as [->|]; [exfalso; apply H; left; auto|].
    rewrite IH by (intros Hx; apply H; right; auto). reflexivity.
Qed.

Lemma filter_all {A} (f : A -> bool) l : (forall x, In x l -> f x = true) -> filter f l = l.
Proof.
  induction l as [|x l IH]; intros H; cbn; auto. rewrite H by (left; auto). f_equal. apply IH. intros y Hy. apply H. right. auto.
Qed.

Lemma delete_snoc {A} (a : list A) x : delete_at (a ++ [x]) [length a] = a.
Proof.
  unfold delete_at. rewrite app_length, Nat.add_1_r, seq_S. cbn [Nat.add].
  assert (Hc : combine (seq 0 (length a) ++ [length a]) (a ++ [x]) = combine (seq 0 (length a)) a ++ [(length a, x)]).
  { assert (Hg : forall s, combine (seq s (length a) ++ [s + length a]) (a ++ [x]) = combine (seq s (length a)) a ++ [(s + length a, x)]).
    { induction a as [|y a IH]; intros s; cbn; auto. f_equal. rewrite <- Nat.add_succ_comm. apply IH. }
    apply (Hg 0). }
  rewrite Hc, filter_app, map_app. cbn [filter fst existsb]. rewrite Nat.eqb_refl. cbn [orb negb map]. rewrite app_nil_r.
  rewrite filter_all.
  2: { intros [i y] Hi. apply in_combine_l, in_seq in Hi. cbn [fst existsb orb].
       destruct (Nat.eqb_spec i (length a)); [lia|reflexivity]. }
  clear. generalize 0. induction a as [|y a IH]; intros s; cbn; auto. f_equal. apply IH.
Qed.

Section Edit.
  Context {F : Type} `{NF : Num F}.

  Lemma node_edit_are (h h' : option (nodeH F)) ns e : nodes_are h ns -> node_edit h e = Ok h' -> nodes_are h' (edited ns e).
  Proof.
    destruct e as [l v|l]; cbn [node_edit edited]; intros H E.
    - injection E as <-. apply add_node_are. exact H.
    - destruct h as [h|]; [|discriminate]. cbn in H, E. destruct H as [H1 H2]. injection E as <-. cbn.
      rewrite H1, H2, !delete_at_map, delete_rows. auto.
  Qed.

  Lemma node_history es : forall (h h' : option (nodeH F)) ns, nodes_are h ns ->
    foldM node_edit es h = Ok h' -> nodes_are h' (fold_left edited es ns).
  Proof.
    induction es as [|e es IH]; intros h h' ns H E; cbn in *; [injection E as <-; auto|].
    mstep E. eapply IH; [|exact E]. eapply node_edit_are; eauto.
  Qed.

  Lemma node_history_total es : forall (h : option (nodeH F)), h <> None \/ (forall l, hd_error es <> Some (Del l)) ->
    exists h', foldM node_edit es h = Ok h'.
  Proof.
    assert (Hs : forall es (h : nodeH F), exists h', foldM node_edit es (Some h) = Ok h').
    { clear es. induction es as [|e es IH]; intros h; cbn; [eauto|].
      destruct e; cbn; apply IH. }
    intros [h|] H; [apply Hs|]. destruct es as [|[l v|l] es]; [cbn; eauto|cbn; apply Hs|].
    destruct H as [H|H]; [congruence|]. exfalso. apply (H l). reflexivity.
  Qed.

  Lemma force_edit_are (h h' : option (forceH F)) fs e : forces_are h fs -> force_edit h e = Ok h' -> forces_are h' (edited fs e).
  Proof.
    destruct e as [l v|l]; cbn [force_edit edited]; intros H E.
    - eapply add_force_are; eauto.
    - destruct h as [h|]; [|discriminate]. cbn in H, E. destruct H as (H1 & H2 & H3). injection E as <-. cbn.
      rewrite H1, H2, !delete_at_map, delete_rows. repeat split; auto.
      rewrite H2 in H3. rewrite Forall_forall in *. intros r Hr. apply H3. apply in_map_iff in Hr.
      destruct Hr as (p & <- & Hp). apply filter_In in Hp. apply in_map. tauto.
  Qed.

  Lemma force_history es : forall (h h' : option (forceH F)) fs, forces_are h fs ->
    foldM force_edit es h = Ok h' -> forces_are h' (fold_left edited es fs).
  Proof.
    induction es as [|e es IH]; intros h h' ns H E; cbn in *; [injection E as <-; auto|].
    mstep E. eapply IH; [|exact E]. eapply force_edit_are; eauto.
  Qed.

  (** Two-dimensional boundary tables stay so. *)
  Definition two_dim (h : option boundH) : Prop := exists n w rows, h = Some (BoundH n (UMat w rows)).

  Lemma bound_edit_are h h' bs e : bounds_are h bs -> two_dim h -> bound_edit h e = Ok h' ->
    bounds_are h' (edited bs e) /\ two_dim h'.
  Proof.
    intros H (n & w & rows & ->) E. destruct e as [l v|l]; cbn [bound_edit edited] in *.
    - split; [eapply add_bound_are; eauto|]. cbn in E. destruct (w =? length v); [|discriminate]. injection E as <-.
      unfold two_dim. eauto.
    - cbn in H. destruct H as [-> [-> Hw]]. cbn [del_bound_U b_nodes b_vals uv_delete] in E.
      destruct (forallb _ _) in E; [|discriminate]. cbn [bind] in E. injection E as <-.
      split; [|unfold two_dim; eauto]. cbn [bounds_are b_nodes b_vals]. rewrite !delete_at_map, delete_rows. split; auto. split; auto.
      rewrite Forall_forall in *. intros r Hr. apply Hw. apply in_map_iff in Hr. destruct Hr as (p & <- & Hp).
      apply filter_In in Hp. apply in_map. tauto.
  Qed.

  Lemma bound_history2 es : forall h h' bs, bounds_are h bs -> two_dim h -> foldM bound_edit es h = Ok h' ->
    bounds_are h' (fold_left edited es bs).
  Proof.
    induction es as [|e es IH]; intros h h' ns H H2 E; cbn in *; [injection E as <-; auto|].
    mstep E. destruct (bound_edit_are _ _ _ _ H H2 Ha). eapply IH; eauto.
  Qed.

  Lemma bound_history a v b w es h' :
    foldM bound_edit (Add a v :: Add b w :: es) None = Ok h' ->
    bounds_are h' (fold_left edited (Add a v :: Add b w :: es) []).
  Proof.
    intros E. cbn [foldM] in E. mstep E. cbn [bound_edit add_bound_U] in Ha. injection Ha as <-.
    mstep E. cbn [fold_left edited app].
    assert (Hb : bounds_are a0 [(a, v); (b, w)]).
    { eapply (add_bound_are _ [(a, v)]); [|exact Ha]. cbn. eauto. }
    eapply bound_history2; [exact Hb| |exact E]. cbn in Ha. destruct (length v =? length w); [|discriminate].
    injection Ha as <-. unfold two_dim. eauto.
  Qed.

  Lemma node_round_trip (h : nodeH F) l v : length (n_coords h) = length (n_labels h) -> ~ In l (n_labels h) ->
    del_node (add_node (Some h) l v) l = Ok (Some h).
  Proof.
    intros Hl Hi. destruct h as [ls cs]. cbn [n_labels n_coords add_node del_node] in *. cbv zeta. rewrite positions_snoc_fresh by auto.
    rewrite delete_snoc. rewrite <- Hl, delete_snoc. reflexivity.
  Qed.

  Lemma force_round_trip (h : forceH F) l v h1 : length (e_rows h) = length (e_nodes h) -> ~ In l (e_nodes h) ->
    add_force (Some h) l v = Ok h1 -> del_force h1 l = Ok (Some h).
  Proof.
    intros Hl Hi E. destruct h as [ls w rs]. cbn in *. destruct (w =? length v); [|discriminate]. injection E as <-.
    cbn [del_force e_nodes e_rows e_width]. cbv zeta. rewrite positions_snoc_fresh by auto. rewrite delete_snoc. rewrite <- Hl, delete_snoc. reflexivity.
  Qed.

  Lemma bound_round_trip ns w rows l v h1 : length rows = length ns -> ~ In l ns ->
    add_bound_U (Some (BoundH ns (UMat w rows))) l v = Ok h1 -> del_bound_U h1 l = Ok (Some (BoundH ns (UMat w rows))).
  Proof.
    intros Hl Hi E. cbn in *. destruct (w =? length v); [|discriminate]. injection E as <-. cbn [del_bound_U b_nodes b_vals].
    rewrite positions_snoc_fresh by auto. rewrite delete_snoc. rewrite <- Hl. cbn [uv_delete].
    rewrite delete_snoc. cbn [forallb]. rewrite app_length. cbn [length].
    destruct (Nat.ltb_spec (length rows) (length rows + 1)); [reflexivity|lia].
  Qed.

  Lemma bound_single_defect n x v : exists h',
    (h1 <- add_bound_U None n (x :: v) ;; del_bound_U h1 n) = Ok h' /\
    forall n' v', length v' = length (x :: v) -> add_bound_U h' n' v' = Err ValueError.
  Proof.
    cbn [add_bound_U bind del_bound_U b_nodes b_vals].
    assert (Hp : positions n [n] = [0]) by (rewrite positions_cons, Z.eqb_refl; reflexivity). rewrite Hp.
    cbn [uv_delete forallb length Nat.ltb Nat.leb andb bind]. eexists. split; [reflexivity|].
    intros n' v' Hv. cbn [add_bound_U b_vals uv_vstack].
    assert (Hd : delete_at (x :: v) [0] = v).
    { unfold delete_at. cbn. clear. assert (H : forall s, map snd (filter (fun p : nat * Z => negb (existsb (Nat.eqb (fst p)) [0])) (combine (seq (S s) (length v)) v)) = v).
      { induction v as [|y v IH]; intros s; cbn; auto. f_equal. apply IH. } apply (H 0). }
    rewrite Hd. cbn [length] in Hv. destruct (Nat.eqb_spec (length v) (length v')); [lia|]. reflexivity.
  Qed.

  (** ** build again *)
  Lemma sorted_lt_le (l : list Z) : StronglySorted Z.lt l -> StronglySorted Z.le l.
  Proof.
    induction 1; constructor; auto. eapply Forall_impl; [|eassumption]. intros; lia.
  Qed.

  Lemma sorted_lt_NoDup (l : list Z) : StronglySorted Z.lt l -> NoDup l.
  Proof.
    induction 1; constructor; auto. intros Hi. rewrite Forall_forall in H0. specialize (H0 _ Hi). lia.
  Qed.

  Lemma sorted_take_same {B} A (rows : list (Z * B)) : argsort_ok A -> StronglySorted Z.lt (map fst rows) ->
    gather (map fst rows) (A (map fst rows)) = Ok (map fst rows) /\ gather (map snd rows) (A (map fst rows)) = Ok (map snd rows).
  Proof.
    intros HA Hs. destruct (sorted_take A rows HA) as (rows' & G1 & G2 & Hp & Hs').
    assert (rows' = rows); [|subst; auto]. apply sorted_fst_unique; auto.
    - eapply Permutation_NoDup; [apply Permutation_map, Permutation_sym, Hp|apply sorted_lt_NoDup; auto].
    - apply sorted_lt_le. auto.
  Qed.

  Lemma missing_none (labels nodes : list Z) : incl labels nodes -> missing labels nodes = [].
  Proof.
    intros H. destruct (missing labels nodes) as [|x l] eqn:E; auto. exfalso.
    assert (Hx : In x (missing labels nodes)) by (rewrite E; left; auto). apply missing_In in Hx. destruct Hx as [H1 H2]. apply H2, H, H1.
  Qed.

  Definition with_built (m : model F) (u : option (built F)) : model F :=
    Model (m_nodes m) (m_elems m) (m_bounds m) (m_forces m) (m_set m) u.

  Lemma build_again A m m1 ns bs fs u :
    argsort_ok A ->
    nodes_are (m_nodes m) ns -> bounds_are (m_bounds m) bs -> forces_are (m_forces m) fs ->
    NoDup (map fst ns) -> 2 <= length ns ->
    build A m = Ok m1 -> build A (with_built m1 u) = Ok m1.
  Proof.
    intros HA Hns Hbs Hfs Hn H2 H.
    destruct (build_tables A m m1 ns bs fs HA Hns Hbs Hfs Hn H2 H) as (_ & _ & ns' & w & T1 & T2 & T3 & T4 & _ & _ & _ & T6 & T7).
    destruct (build_inv A m m1 H) as (nh0 & eh & nh & bh & fh & D0 & D1 & an & X1 & X2 & X3 & X4 & X5 & X6 & X7 & X8 & X9 & X10 & X11).
    pose proof (fix_nodes_labels A HA nh0 nh X3) as Hlab. cbn zeta in X10, X11. subst m1.
    cbn [m_nodes m_bounds m_forces m_elems m_set m_built with_built] in *.
    unfold build, with_built. cbn [m_nodes m_bounds m_forces m_elems m_set m_built].
    set (bs' := rows_for bs [1; 1; 1]%Z (map fst ns')) in *. set (fs' := rows_for fs (repeat f0 w) (map fst ns')) in *.
    assert (Hlb : map fst bs' = map fst ns') by apply rows_for_fst.
    assert (Hlf : map fst fs' = map fst ns') by apply rows_for_fst.
    assert (E1 : fix_nodes A (Some nh) = Ok (Some nh)).
    { destruct nh as [ls cs]. cbn in T1 |- *. destruct T1 as [-> ->]. destruct (sorted_take_same A ns' HA T3) as [-> ->]. reflexivity. }
    rewrite E1. cbn [bind]. assert (Hnl : n_labels nh = map fst ns') by apply T1.
    assert (E2 : fix_bounds_U A (Some bh) (n_labels nh) = Ok (Some bh)).
    { unfold fix_bounds_U. destruct T4 as [B1 B2]. rewrite B1, Hnl, Hlb, missing_none by apply incl_refl. cbn [foldM bind].
      rewrite B1. assert (Hsb : StronglySorted Z.lt (map fst bs')) by (rewrite Hlb; exact T3).
      destruct (sorted_take_same A bs' HA Hsb) as [G1 G2]. rewrite G1. cbn [bind].
      destruct bh as [bn [l|w' rows]]; cbn in B1, B2 |- *.
      - exfalso. destruct B2 as (n & E). assert (Hl : length bs' = length ns) by (unfold bs', rows_for; rewrite !map_length; apply Permutation_length; auto).
        rewrite E in Hl. cbn in Hl. lia.
      - destruct B2 as [-> _]. rewrite G2. cbn. subst bn. reflexivity. }
    rewrite E2. cbn [bind].
    assert (E3 : fix_forces A (Some fh) (n_labels nh) = Ok (Some fh)).
    { unfold fix_forces. destruct T6 as (B1 & B2 & _). rewrite B1, Hnl, Hlf, missing_none by apply incl_refl. cbn [foldM bind].
      rewrite B1, B2. assert (Hsb : StronglySorted Z.lt (map fst fs')) by (rewrite Hlf; exact T3).
      destruct (sorted_take_same A fs' HA Hsb) as [-> ->]. cbn [bind]. destruct fh; cbn in *. subst. reflexivity. }
    rewrite E3. cbn [bind]. rewrite X6, X7. cbn [bind negb]. rewrite Hlab, X8. cbn [bind]. rewrite X9. cbn [bind].
    cbn [s_nstatev with_nstatev].
    destruct (existsb (Z.eqb 2) (el_mtype eh)); rewrite X10; reflexivity.
  Qed.

  Lemma run_keeps AF S (m m2 : model F) fuel out : run AF S m fuel = Ok (m2, out) -> exists u, m2 = with_built m u.
  Proof.
    unfold run. destruct (_ && _); [discriminate|]. destruct (_ && _); [discriminate|].
    destruct (m_built m) as [u|] eqn:E1; [|discriminate]. destruct (m_nodes m) eqn:E2; [|discriminate].
    destruct (m_elems m) eqn:E3; [|discriminate]. destruct (m_forces m) eqn:E4; [|discriminate].
    destruct (u_R u); [discriminate|]. intros H. mstep H. injection H as <- <-. unfold with_built. rewrite E2, E3, E4. eauto.
  Qed.

  (** ** Active and locked DOFs in terms of the given flags *)
  Lemma row_for_length (bs : list (Z * list Z)) l : (forall r, In r (map snd bs) -> length r = 3) -> length (row_for bs [1; 1; 1]%Z l) = 3.
  Proof.
    induction bs as [|[a v] bs IH]; intros H; cbn; auto. destruct (Z.eqb l a); [apply H; left; auto|]. apply IH. intros r Hr. apply H. right. auto.
  Qed.

  Lemma build_partition A m m' ns bs fs :
    argsort_ok A ->
    nodes_are (m_nodes m) ns -> bounds_are (m_bounds m) bs -> forces_are (m_forces m) fs ->
    NoDup (map fst ns) -> 2 <= length ns -> (forall r, In r (map snd bs) -> length r = 3) ->
    build A m = Ok m' ->
    exists nh u, m_nodes m' = Some nh /\ m_built m' = Some u /\
      (forall p l c, nth_error (n_labels nh) p = Some l -> c < 3 ->
         (In (3 * p + c) (a_DOF1 (u_an u)) <-> nth c (row_for bs [1; 1; 1]%Z l) 0%Z = 1%Z) /\
         (In (3 * p + c) (a_DOF0 (u_an u)) <-> nth c (row_for bs [1; 1; 1]%Z l) 1%Z = 0%Z)) /\
      StronglySorted lt (a_DOF1 (u_an u)) /\ StronglySorted lt (a_DOF0 (u_an u)) /\
      (forall k, In k (a_DOF0 (u_an u) ++ a_DOF1 (u_an u)) -> k < 3 * length ns) /\
      u_ndof1 u = length (a_DOF1 (u_an u)) /\
      ((forall l v, In (l, v) bs -> incl v [0; 1]%Z) ->
        Permutation (a_DOF0 (u_an u) ++ a_DOF1 (u_an u)) (seq 0 (3 * length ns))).
  Proof.
    intros HA Hns Hbs Hfs Hn H2 H3 H.
    destruct (build_tables A m m' ns bs fs HA Hns Hbs Hfs Hn H2 H) as (Mb & _ & ns' & w & T1 & T2 & T3 & T4 & _).
    set (bs' := rows_for bs [1; 1; 1]%Z (map fst ns')) in *.
    assert (Hlen : length bs' = length ns) by (unfold bs', rows_for; rewrite !map_length; apply Permutation_length; auto).
    assert (Hr3 : forall r, In r (map snd bs') -> length r = 3).
    { intros r Hr. unfold bs', rows_for in Hr. rewrite map_map in Hr. apply in_map_iff in Hr. destruct Hr as (l & <- & _). apply row_for_length. exact H3. }
    destruct (build_dofs A m m' bs' HA H T4 ltac:(lia) Hr3) as (u & U1 & U2 & U3 & U4 & U5 & U6).
    destruct (m_nodes m') as [nh|] eqn:En; [|cbn in T1; subst ns'; cbn in T2; apply Permutation_length in T2; cbn in T2; lia].
    exists nh, u. split; [reflexivity|]. split; [exact U1|].
    assert (Hnl : n_labels nh = map fst ns') by apply T1.
    assert (Hrow : forall p l, nth_error (n_labels nh) p = Some l -> nth_error (map snd bs') p = Some (row_for bs [1; 1; 1]%Z l)).
    { intros p l Hp. unfold bs', rows_for. rewrite map_map, nth_error_map. rewrite <- Hnl, Hp. reflexivity. }
    assert (Hdm : forall p c, c < 3 -> (3 * p + c) / 3 = p /\ (3 * p + c) mod 3 = c).
    { intros p c Hc. split; [rewrite Nat.mul_comm, Nat.div_add_l by lia; rewrite Nat.div_small by lia; lia|].
      rewrite Nat.add_comm, Nat.mul_comm, Nat.mod_add by lia. apply Nat.mod_small. lia. }
    assert (Hlt : forall v D, (forall k, In k D <-> exists r, nth_error (map snd bs') (k / 3) = Some r /\ nth_error r (k mod 3) = Some v) ->
      forall k, In k D -> k < 3 * length ns).
    { intros v D HD k Hk. apply HD in Hk. destruct Hk as (r & Hr & _). assert (Hk : k / 3 < length (map snd bs')) by (apply nth_error_Some; congruence).
      rewrite map_length, Hlen in Hk. pose proof (Nat.div_mod k 3 ltac:(lia)). pose proof (Nat.mod_upper_bound k 3 ltac:(lia)). lia. }
    split.
    { intros p l c Hp Hc. destruct (Hdm p c Hc) as [E1 E2]. rewrite U2, U3, E1, E2, (Hrow p l Hp).
      pose proof (row_for_length bs l H3) as Hl. split; split.
      - intros (r & Er & Hr). injection Er as <-. rewrite (nth_error_nth _ _ _ Hr). reflexivity.
      - intros Hv. eexists. split; [reflexivity|]. rewrite (nth_error_nth' _ 0%Z) by lia. congruence.
      - intros (r & Er & Hr). injection Er as <-. rewrite (nth_error_nth _ _ _ Hr). reflexivity.
      - intros Hv. eexists. split; [reflexivity|]. rewrite (nth_error_nth' _ 1%Z) by lia. congruence. }
    split; [exact U4|]. split; [exact U5|].
    split. { intros k Hk. apply in_app_iff in Hk. destruct Hk as [Hk|Hk]; [exact (Hlt _ _ U3 k Hk)|exact (Hlt _ _ U2 k Hk)]. }
    split; [exact U6|]. intros Hfl.
    assert (Hss : forall l, StronglySorted lt l -> NoDup l).
    { clear. induction 1; constructor; auto. intros Hi. rewrite Forall_forall in H0. specialize (H0 _ Hi). lia. }
    apply NoDup_Permutation.
    - apply NoDup_app_intro; auto. intros k K0 K1. apply U3 in K0. apply U2 in K1. destruct K0 as (r & R1 & R2), K1 as (r' & R1' & R2'). congruence.
    - apply seq_NoDup.
    - intros k. rewrite in_seq. split.
      + intros Hk. apply in_app_iff in Hk. destruct Hk as [Hk|Hk]; [apply (Hlt _ _ U3) in Hk|apply (Hlt _ _ U2) in Hk]; lia.
      + intros [_ Hk]. cbn in Hk. assert (Hp : k / 3 < length (map snd bs')).
        { rewrite map_length, Hlen. apply Nat.div_lt_upper_bound; lia. }
        destruct (nth_error (map snd bs') (k / 3)) as [r|] eqn:Er; [|apply nth_error_None in Er; lia].
        assert (Hr : length r = 3) by (apply Hr3; eapply nth_error_In; eauto).
        assert (Hm : k mod 3 < length r) by (rewrite Hr; apply Nat.mod_upper_bound; lia).
        destruct (nth_error r (k mod 3)) as [z|] eqn:Ez; [|apply nth_error_None in Ez; lia].
        assert (Hz : In z [0; 1]%Z).
        { assert (Hin : incl r [0; 1]%Z).
          { apply nth_error_In in Er. unfold bs', rows_for in Er. rewrite map_map in Er. apply in_map_iff in Er. destruct Er as (l & <- & _). cbn [snd].
            destruct (in_dec Z.eq_dec l (map fst bs)) as [Hi|Hi].
            - apply in_map_iff in Hi. destruct Hi as ([a v] & E & Hin). cbn in E. subst a. rewrite (row_for_In bs _ l v); auto; [|apply Mb]. eapply Hfl; eauto.
            - rewrite row_for_notin by auto. intros x Hx. cbn in Hx. cbn. tauto. }
          apply Hin. eapply nth_error_In; eauto. }
        rewrite in_app_iff, U2, U3. destruct Hz as [<-|[<-|[]]]; [left|right]; eauto.
  Qed.

  (** ** Order of insertion *)
  Lemma build_order A B st el ns1 ns2 bs1 bs2 fs1 fs2 hb1 hf1 m' :
    argsort_ok A -> argsort_ok B ->
    Permutation ns1 ns2 -> Permutation bs1 bs2 -> Permutation fs1 fs2 ->
    NoDup (map fst ns1) -> 2 <= length ns1 -> (forall r, In r (map snd bs1) -> length r = 3) ->
    add_bounds_U None bs1 = Ok hb1 -> add_forces None fs1 = Ok hf1 ->
    build A (Model (add_nodes None ns1) el hb1 hf1 st None) = Ok m' ->
    exists hb2 hf2, add_bounds_U None bs2 = Ok hb2 /\ add_forces None fs2 = Ok hf2 /\
      build B (Model (add_nodes None ns2) el hb2 hf2 st None) = Ok m'.
  Proof.
    intros HA HB Pn Pb Pf Hn H2 H3 Eb Ef E.
    assert (N1 : nodes_are (add_nodes None ns1) ns1) by (apply (add_nodes_are ns1 None []); reflexivity).
    assert (B1 : bounds_are hb1 bs1) by (apply (add_bounds_are bs1 None []); [reflexivity|auto]).
    assert (F1 : forces_are hf1 fs1) by (apply (add_forces_are fs1 None []); [reflexivity|auto]).
    set (m1 := Model (add_nodes None ns1) el hb1 hf1 st None) in *.
    destruct (build_tables A m1 m' ns1 bs1 fs1 HA N1 B1 F1 Hn H2 E) as (Mb & Mf & ns' & w & T1 & T2 & T3 & T4 & T5 & T5' & _ & T6 & T7).
    destruct (build_inv A m1 m' E) as (nh0 & eh & nh & bh & fh & D0 & D1 & an & X1 & X2 & X3 & X4 & X5 & _).
    assert (Hf1 : hf1 <> None). { intros ->. cbn in X5. discriminate. }
    assert (Hff : fs1 <> []). { intros ->. cbn in Ef. congruence. }
    destruct (add_bounds_total bs2 None [] 3 eq_refl (or_introl eq_refl)) as [hb2 Eb2].
    { cbn [app]. intros r Hr. apply H3. eapply Permutation_in; [apply Permutation_map, Permutation_sym, Pb|auto]. }
    destruct (add_forces_total fs2 None [] w eq_refl) as [hf2 Ef2]; [discriminate| |].
    { intros r Hr. apply T5. eapply Permutation_in; [apply Permutation_map, Permutation_sym, Pf|auto]. }
    exists hb2, hf2. split; [exact Eb2|]. split; [exact Ef2|].
    assert (N2 : nodes_are (add_nodes None ns2) ns2) by (apply (add_nodes_are ns2 None []); reflexivity).
    assert (B2 : bounds_are hb2 bs2) by (apply (add_bounds_are bs2 None []); [reflexivity|auto]).
    assert (F2 : forces_are hf2 fs2) by (apply (add_forces_are fs2 None []); [reflexivity|auto]).
    set (m2 := Model (add_nodes None ns2) el hb2 hf2 st None) in *.
    assert (Hn2 : NoDup (map fst ns2)) by (eapply Permutation_NoDup; [apply Permutation_map, Pn|auto]).
    assert (Hl2 : 2 <= length ns2) by (rewrite <- (Permutation_length Pn); auto).
    assert (Hmm : forall X (r1 r2 : list (Z * X)), Permutation r1 r2 -> matches ns1 r1 -> matches ns2 r2).
    { intros X r1 r2 P [M1 M2]. split; [eapply Permutation_NoDup; [apply Permutation_map, P|auto]|].
      intros x Hx. eapply Permutation_in; [apply Permutation_map, Pn|]. apply M2.
      eapply Permutation_in; [apply Permutation_map, Permutation_sym, P|auto]. }
    assert (Hff2 : fs2 <> []). { intros ->. apply Permutation_sym, Permutation_nil in Pf. auto. }
    destruct (build_total B m2 ns2 bs2 fs2 HB N2 B2 F2 Hn2 Hl2) as [m2' E2]; cbn [m_elems m_forces m_bounds m2].
    - intros E'. cbn [m_elems m1] in X2. congruence.
    - intros E'. rewrite E' in F2. cbn in F2. auto.
    - destruct bs2 as [|b bs2]; [left; cbn in Eb2; congruence|right; discriminate].
    - intros r Hr. apply H3. eapply Permutation_in; [apply Permutation_map, Permutation_sym, Pb|auto].
    - eapply Hmm; eauto.
    - eapply Hmm; eauto.
    - rewrite E2. f_equal. symmetry.
      apply (build_same A B m1 m2 m' m2' ns1 bs1 fs1 ns2 bs2 fs2 HA HB N1 B1 F1 N2 B2 F2 Hn H2 Pn Pb Pf); auto.
      intros h1 h2 E1' E2'. cbn [m_forces m1 m2] in E1', E2'. rewrite E2' in F2. destruct F2 as (_ & F2 & F3).
      rewrite (T5' h1) by exact E1'. destruct fs2 as [|[a v] fs2]; [congruence|]. rewrite F2 in F3. cbn in F3. apply Forall_inv in F3. rewrite <- F3.
      symmetry. apply T5. eapply Permutation_in; [apply Permutation_map, Permutation_sym, Pf|]. left. reflexivity.
  Qed.

  (** ** Adding rows after build *)
  Definition with_bounds (m : model F) h := Model (m_nodes m) (m_elems m) h (m_forces m) (m_set m) (m_built m).
  Definition with_forces (m : model F) h := Model (m_nodes m) (m_elems m) (m_bounds m) h (m_set m) (m_built m).

  Lemma build_then_add A m m1 ns bs fs :
    argsort_ok A ->
    nodes_are (m_nodes m) ns -> bounds_are (m_bounds m) bs -> forces_are (m_forces m) fs ->
    NoDup (map fst ns) -> 2 <= length ns ->
    build A m = Ok m1 ->
    forall l, In l (map fst ns) ->
    (forall v h, add_bound_U (m_bounds m1) l v = Ok h -> exists e, build A (with_bounds m1 h) = Err e) /\
    (forall v h, add_force (m_forces m1) l v = Ok h -> exists e, build A (with_forces m1 h) = Err e).
  Proof.
    intros HA Hns Hbs Hfs Hn H2 H l Hl.
    destruct (build_tables A m m1 ns bs fs HA Hns Hbs Hfs Hn H2 H) as (_ & _ & ns' & w & T1 & T2 & T3 & T4 & _ & _ & _ & T6 & T7).
    assert (Hn' : NoDup (map fst ns')) by (eapply Permutation_NoDup; [apply Permutation_sym, Permutation_map, T2|auto]).
    assert (H2' : 2 <= length ns') by (rewrite (Permutation_length T2); auto).
    assert (Hl' : In l (map fst ns')) by (eapply Permutation_in; [apply Permutation_sym, Permutation_map, T2|auto]).
    assert (Hd : forall X (rows : list (Z * X)) v, map fst rows = map fst ns' -> ~ matches ns' (rows ++ [(l, v)])).
    { intros X rows v E [Hx _]. rewrite map_app in Hx. cbn in Hx. apply NoDup_remove_2 in Hx. apply Hx. rewrite app_nil_r, E. exact Hl'. }
    split; intros v h E.
    - eapply (build_rejects A (with_bounds m1 h) ns'); eauto; cbn [m_bounds with_bounds].
      + eapply add_bound_are; eauto.
      + left. apply Hd. apply rows_for_fst.
    - eapply (build_rejects A (with_forces m1 h) ns'); eauto; cbn [m_forces with_forces].
      + eapply add_force_are; eauto.
      + right. apply Hd. apply rows_for_fst.
  Qed.
End Edit.
