(** * Lemmas behind the properties of build (C01 - C04, C09) *)
From Coq Require Import List ZArith Bool Arith Lia Permutation Sorting.Sorted.
Import ListNotations.
From Verif Require Import Num Vec Handlers Material Analysis Truss Equil Solver Run ListFacts SpecBuild BuildFacts.

Lemma row_for_In {A} (rows : list (Z * A)) d l v : NoDup (map fst rows) -> In (l, v) rows -> row_for rows d l = v.
Proof.
  induction rows as [|[a w] rows IH]; cbn [map fst row_for In]; intros Hn H; [contradiction|]. inv Hn.
  destruct H as [H|H]; [injection H as -> ->; rewrite Z.eqb_refl; auto|].
  destruct (Z.eqb_spec l a) as [->|]; [|auto]. exfalso. apply H2. apply in_map with (f := fst) in H. exact H.
Qed.

Lemma row_for_notin {A} (rows : list (Z * A)) d l : ~ In l (map fst rows) -> row_for rows d l = d.
Proof.
  induction rows as [|[a w] rows IH]; cbn [map fst row_for In]; intros H; auto.
  destruct (Z.eqb_spec l a) as [->|]; [exfalso; auto|auto].
Qed.

Lemma filled_rows {A B} (ns : list (Z * B)) (d : A) rows rows' : NoDup (map fst ns) -> matches ns rows ->
  Permutation rows' (filled (map fst ns) d rows) -> StronglySorted Z.le (map fst rows') ->
  forall ns', Permutation ns' ns -> StronglySorted Z.le (map fst ns') ->
  rows' = rows_for rows d (map fst ns').
Proof.
  intros Hn Hm Hp Hs ns' Hp' Hs'.
  assert (E : map fst rows' = map fst ns').
  { apply sorted_Z_unique; auto. transitivity (map fst (filled (map fst ns) d rows)); [apply Permutation_map; auto|].
    rewrite filled_perm by auto. apply Permutation_sym, Permutation_map. exact Hp'. }
  rewrite <- E. unfold rows_for. rewrite map_map. rewrite <- (map_id rows') at 1. apply map_ext_in.
  intros [l v] Hin. cbn [fst]. f_equal. apply (Permutation_in _ Hp) in Hin. unfold filled in Hin.
  apply in_app_iff in Hin. destruct Hin as [Hin|Hin].
  - symmetry. apply row_for_In; auto. apply Hm.
  - apply in_map_iff in Hin. destruct Hin as (n & E1 & Hn'). injection E1 as -> <-. apply missing_In in Hn'.
    symmetry. apply row_for_notin. tauto.
Qed.

Lemma rows_for_fst {A} (rows : list (Z * A)) d labels : map fst (rows_for rows d labels) = labels.
Proof. unfold rows_for. rewrite map_map. cbn. apply map_id. Qed.

Lemma rows_for_perm {A} (r1 r2 : list (Z * A)) d labels : NoDup (map fst r1) -> Permutation r1 r2 ->
  rows_for r1 d labels = rows_for r2 d labels.
Proof.
  intros Hn Hp. apply map_ext. intros l. f_equal.
  assert (Hn2 : NoDup (map fst r2)) by (eapply Permutation_NoDup; [apply Permutation_map; eauto|auto]).
  destruct (in_dec Z.eq_dec l (map fst r1)) as [H|H].
  - apply in_map_iff in H. destruct H as ([a v] & E & Hin). cbn in E. subst a.
    rewrite (row_for_In r1 d l v), (row_for_In r2 d l v); auto. eapply Permutation_in; eauto.
  - rewrite !row_for_notin; auto. intros H2. apply H. eapply Permutation_in; [apply Permutation_sym, Permutation_map, Hp|auto].
Qed.

Lemma gather_seq n ix r : gather (seq 0 n) ix = Ok r -> r = ix.
Proof.
  intros H. destruct (gather_nth _ _ _ H) as [Hl Hn]. apply nth_error_ext. intros k.
  destruct (nth_error ix k) as [i|] eqn:E.
  - destruct (Hn _ _ E) as [-> Hi]. rewrite seq_length in Hi. rewrite nth_error_seq.
    destruct (Nat.ltb_spec i n); [reflexivity|lia].
  - apply nth_error_None. apply nth_error_None in E. lia.
Qed.

Lemma gather_seq_total n ix : (forall k, In k ix -> k < n) -> gather (seq 0 n) ix = Ok ix.
Proof.
  intros H. destruct (gather_ok (seq 0 n) ix) as [r E]; [intros; rewrite seq_length; auto|].
  rewrite E. f_equal. eapply gather_seq; eauto.
Qed.

Lemma nth_error_concat_w {A} w (rows : list (list A)) k : 0 < w -> (forall r, In r rows -> length r = w) ->
  nth_error (concat rows) k = match nth_error rows (k / w) with Some r => nth_error r (k mod w) | None => None end.
Proof.
  intros Hw. revert k. induction rows as [|r rows IH]; intros k H; cbn [concat].
  - rewrite (proj2 (nth_error_None [] (k / w))) by (cbn; lia). destruct k; reflexivity.
  - assert (Hr : length r = w) by (apply H; left; auto).
    destruct (Nat.lt_ge_cases k w) as [Hk|Hk].
    + rewrite nth_error_app1 by lia. rewrite Nat.div_small, Nat.mod_small by lia. reflexivity.
    + rewrite nth_error_app2 by lia. rewrite Hr, IH by (intros; apply H; right; auto).
      assert (E1 : k / w = S ((k - w) / w)).
      { replace k with ((k - w) + 1 * w) at 1 by lia. rewrite Nat.div_add by lia. lia. }
      assert (E2 : k mod w = (k - w) mod w).
      { replace k with ((k - w) + 1 * w) at 1 by lia. rewrite Nat.mod_add by lia. reflexivity. }
      rewrite E1, E2. reflexivity.
Qed.

Lemma concat_length_w {A} w (rows : list (list A)) : (forall r, In r rows -> length r = w) ->
  length (concat rows) = w * length rows.
Proof.
  induction rows as [|r rows IH]; intros H; cbn [concat length]; [lia|].
  rewrite app_length, IH, (H r) by (try left; auto; intros; apply H; right; auto). lia.
Qed.

Section Props.
  Context {F : Type} `{NF : Num F}.

  Lemma build_tables A m m' ns bs fs :
    argsort_ok A ->
    nodes_are (m_nodes m) ns -> bounds_are (m_bounds m) bs -> forces_are (m_forces m) fs ->
    NoDup (map fst ns) -> 2 <= length ns ->
    build A m = Ok m' ->
    matches ns bs /\ matches ns fs /\
    exists ns' w, nodes_are (m_nodes m') ns' /\ Permutation ns' ns /\ StronglySorted Z.lt (map fst ns') /\
      bounds_are (m_bounds m') (rows_for bs [1; 1; 1]%Z (map fst ns')) /\
      (forall r, In r (map snd fs) -> length r = w) /\
      (forall fh, m_forces m = Some fh -> e_width fh = w) /\
      (forall fh, m_forces m' = Some fh -> e_width fh = w) /\
      forces_are (m_forces m') (rows_for fs (repeat f0 w) (map fst ns')) /\
      m_elems m' = m_elems m.
  Proof.
    intros HA Hns Hbs Hfs Hn H2 H.
    destruct (build_inv A m m' H) as (nh0 & eh & nh & bh & fh & D0 & D1 & an & E1 & E2 & Ef & Eb & Eo & C1 & C2 & Hd0 & Hd1 & Han & Em).
    rewrite E1 in Hns. destruct (fix_nodes_spec A HA (Some nh0) ns Hns ltac:(discriminate)) as (ns' & h' & Ef' & Hns' & Hp & Hs).
    rewrite Ef in Ef'. injection Ef' as <-.
    assert (Hl : n_labels nh = map fst ns') by apply Hns'.
    assert (Hn' : NoDup (map fst ns')) by (eapply Permutation_NoDup; [apply Permutation_sym, Permutation_map, Hp|auto]).
    assert (Hlen : 2 <= length (map fst ns')) by (rewrite map_length, (Permutation_length Hp); auto).
    rewrite Hl in *.
    destruct (fix_bounds_spec A HA _ _ _ _ Hn' Hlen Hbs Eb) as (bs' & bh' & Eh & Hb' & Hpb & Hsb & _).
    injection Eh as <-.
    assert (Hne : m_forces m <> None) by (intros E; rewrite E in Eo; discriminate).
    destruct (fix_forces_spec A HA _ (map fst ns') fs Hne Hfs) as (fh0 & fs' & fh' & Eh & Eo' & Hf' & Ew & Hpf & Hsf).
    rewrite Eo in Eo'. injection Eo' as <-.
    assert (Hbl : b_nodes bh = map fst bs') by apply Hb'. assert (Hfl : e_nodes fh = map fst fs') by apply Hf'.
    assert (Lb : length bs' = length ns').
    { rewrite Hbl in C1. symmetry. rewrite <- (map_length fst bs'), <- (map_length fst ns'). eapply allclose_length; [| |exact C1]; auto.
      pose proof (NoDup_incl_length Hn' (filled_incl (map fst ns') [1; 1; 1]%Z bs)) as Hi.
      rewrite map_length, (Permutation_length Hpb). rewrite !map_length in Hi. rewrite map_length in Hlen. lia. }
    assert (Lf : length fs' = length ns').
    { rewrite Hfl in C2. symmetry. rewrite <- (map_length fst fs'), <- (map_length fst ns'). eapply allclose_length; [| |exact C2]; auto.
      pose proof (NoDup_incl_length Hn' (filled_incl (map fst ns') (repeat f0 (e_width fh0)) fs)) as Hi.
      rewrite map_length, (Permutation_length Hpf). rewrite !map_length in Hi. rewrite map_length in Hlen. lia. }
    assert (Mb : matches ns' bs).
    { apply (filled_matches ns' [1; 1; 1]%Z); auto. rewrite <- (Permutation_length Hpb). lia. }
    assert (Mf : matches ns' fs).
    { apply (filled_matches ns' (repeat f0 (e_width fh0))); auto. rewrite <- (Permutation_length Hpf). lia. }
    assert (Hto : forall B (rows : list (Z * B)), matches ns' rows -> matches ns rows).
    { intros B rows [Ha Hb]. split; auto. intros x Hx. eapply Permutation_in; [apply Permutation_map, Hp|auto]. }
    split; [auto|]. split; [auto|]. exists ns', (e_width fh0).
    rewrite (filled_rows ns' _ _ _ Hn' Mb Hpb Hsb ns' (Permutation_refl _) Hs) in Hb'.
    rewrite (filled_rows ns' _ _ _ Hn' Mf Hpf Hsf ns' (Permutation_refl _) Hs) in Hf'.
    assert (Em' : m_nodes m' = Some nh /\ m_bounds m' = Some bh /\ m_forces m' = Some fh /\ m_elems m' = Some eh)
      by (cbn zeta in Em; subst m'; auto).
    destruct Em' as (-> & -> & -> & ->).
    split; [exact Hns'|]. split; [exact Hp|]. split; [apply sorted_le_lt; auto|]. split; [exact Hb'|].
    split. { rewrite Eh in Hfs. destruct Hfs as (_ & F2 & F3). rewrite F2 in F3. rewrite Forall_forall in F3. exact F3. }
    split. { intros h0 E. congruence. }
    split. { intros h0 E. injection E as <-. exact Ew. }
    split; [exact Hf'|congruence].
  Qed.

  (** Enough for build to succeed. *)
  Lemma build_total A m ns bs fs :
    argsort_ok A ->
    nodes_are (m_nodes m) ns -> bounds_are (m_bounds m) bs -> forces_are (m_forces m) fs ->
    NoDup (map fst ns) -> 2 <= length ns ->
    m_elems m <> None -> m_forces m <> None -> m_bounds m = None \/ bs <> [] ->
    (forall r, In r (map snd bs) -> length r = 3) ->
    matches ns bs -> matches ns fs ->
    exists m', build A m = Ok m'.
  Proof.
    intros HA Hns Hbs Hfs Hn H2 He Hf Hb0 Hr Mb Mf. unfold build.
    destruct (m_nodes m) as [nh0|] eqn:E1; [|cbn in Hns; subst; cbn in H2; lia].
    destruct (m_elems m) as [eh|] eqn:E2; [|congruence].
    destruct (fix_nodes_spec A HA (Some nh0) ns Hns ltac:(discriminate)) as (ns' & nh & Ef & Hns' & Hp & Hs).
    rewrite Ef. cbn [bind].
    assert (Hl : n_labels nh = map fst ns') by apply Hns'.
    assert (Hn' : NoDup (map fst ns')) by (eapply Permutation_NoDup; [apply Permutation_sym, Permutation_map, Hp|auto]).
    assert (Hlen : 2 <= length (map fst ns')) by (rewrite map_length, (Permutation_length Hp); auto).
    rewrite Hl.
    destruct (fix_bounds_total A HA _ _ _ Hbs Hb0 Hlen Hn' Hr) as [ob Eb].
    destruct (fix_bounds_spec A HA _ _ _ _ Hn' Hlen Hbs Eb) as (bs' & bh & -> & Hb' & Hpb & Hsb & w & rows & Ev).
    rewrite Eb. cbn [bind].
    destruct (fix_forces_spec A HA _ (map fst ns') fs Hf Hfs) as (fh0 & fs' & fh & Eh & Eo & Hf' & Ew & Hpf & Hsf).
    rewrite Eo. cbn [bind].
    assert (Hto : forall B (rows : list (Z * B)), matches ns rows -> matches ns' rows).
    { intros B r0 [Ha Hb]. split; auto. intros x Hx. eapply Permutation_in; [apply Permutation_sym, Permutation_map, Hp|auto]. }
    rewrite (filled_rows ns' _ _ _ Hn' (Hto _ _ Mb) Hpb Hsb ns' (Permutation_refl _) Hs) in Hb'.
    rewrite (filled_rows ns' _ _ _ Hn' (Hto _ _ Mf) Hpf Hsf ns' (Permutation_refl _) Hs) in Hf'.
    assert (Hbl : b_nodes bh = map fst ns') by (destruct Hb' as [-> _]; apply rows_for_fst).
    assert (Hfl : e_nodes fh = map fst ns') by (destruct Hf' as [-> _]; apply rows_for_fst).
    rewrite Hbl, Hfl, allclose_refl. cbn [bind negb].
    destruct Hb' as [_ Hb']. rewrite Ev in Hb' |- *. destruct Hb' as [-> Hw]. cbn [uv_flatten].
    assert (Hr3 : forall r, In r (map snd (rows_for bs [1; 1; 1]%Z (map fst ns'))) -> length r = 3).
    { intros r Hin. unfold rows_for in Hin. rewrite map_map in Hin. apply in_map_iff in Hin. destruct Hin as (l & <- & _). cbn [snd].
      destruct (in_dec Z.eq_dec l (map fst bs)) as [Hi|Hi].
      - apply in_map_iff in Hi. destruct Hi as ([a v] & E & Hin). cbn in E. subst a.
        rewrite (row_for_In bs _ l v); auto; [|apply Mb]. apply Hr. apply in_map with (f := snd) in Hin. exact Hin.
      - rewrite row_for_notin by auto. reflexivity. }
    assert (Hnl : length (n_labels nh0) = length ns) by (destruct Hns as [-> _]; apply map_length).
    assert (Hfl3 : length (concat (map snd (rows_for bs [1; 1; 1]%Z (map fst ns')))) = 3 * length (n_labels nh0)).
    { rewrite (concat_length_w 3) by exact Hr3. unfold rows_for. rewrite !map_length, (Permutation_length Hp), Hnl. reflexivity. }
    unfold dofs_with.
    rewrite gather_seq_total by (intros k Hk; rewrite <- Hfl3; eapply positions_lt; eauto). cbn [bind].
    rewrite gather_seq_total by (intros k Hk; rewrite <- Hfl3; eapply positions_lt; eauto). cbn [bind].
    unfold analysis_build.
    destruct (gather_ok (vflat (zeros3 (length (n_labels nh0)))) (positions 1 (concat (map snd (rows_for bs [1; 1; 1]%Z (map fst ns')))))) as [u Eu].
    { intros k Hk. rewrite vflat_length. unfold zeros3. rewrite repeat_length, <- Hfl3. eapply positions_lt; eauto. }
    rewrite Eu. cbn [bind]. eauto.
  Qed.

  (** C02 *)
  Lemma build_rejects A m ns bs fs :
    argsort_ok A ->
    nodes_are (m_nodes m) ns -> bounds_are (m_bounds m) bs -> forces_are (m_forces m) fs ->
    NoDup (map fst ns) -> 2 <= length ns ->
    ~ matches ns bs \/ ~ matches ns fs -> exists e, build A m = Err e.
  Proof.
    intros HA Hns Hbs Hfs Hn H2 Hm. destruct (build A m) as [m'|e|] eqn:E; [|eauto|].
    - exfalso. destruct (build_tables A m m' ns bs fs HA Hns Hbs Hfs Hn H2 E) as (Mb & Mf & _). tauto.
    - exfalso. revert E. unfold build.
      assert (Hg : forall B (a : list B) ix, gather a ix <> Timeout).
      { intros B a ix. induction ix as [|i ix IH]; cbn; [discriminate|]. destruct (nth_error a i); [|discriminate].
        destruct (gather a ix); cbn; try discriminate; congruence. }
      assert (Hb : forall B C (r : res B) (k : B -> res C), bind r k = Timeout -> r = Timeout \/ exists b, r = Ok b /\ k b = Timeout).
      { intros B C [b| |] k H; cbn in H; eauto; discriminate. }
      assert (Hfold : forall B S (f : S -> B -> res S), (forall s b, f s b <> Timeout) -> forall l s, foldM f l s <> Timeout).
      { intros B S f Hf. induction l as [|b l IH]; intros s; cbn; [discriminate|].
        intros H. apply Hb in H. destruct H as [H|(x & _ & H)]; [eapply Hf; eauto|eapply IH; eauto]. }
      assert (Hadd : forall h n v, add_bound_U h n v <> Timeout).
      { intros [h|] n v; cbn; [|discriminate]. destruct (b_vals h); cbn; destruct (_ =? _); cbn; discriminate. }
      assert (Haddf : forall (h : option (forceH F)) n v, add_force h n v <> Timeout).
      { intros [h|] n v; cbn; [|discriminate]. destruct (_ =? _); discriminate. }
      assert (Hall : forall a b, allclose a b <> Timeout).
      { intros a b H. unfold allclose in H. apply Hb in H. destruct H as [H|(x & _ & H)]; [|discriminate].
        unfold bcast2 in H. destruct (_ =? _); [discriminate|]. destruct a as [|? [|]], b as [|? [|]]; discriminate. }
      destruct (m_nodes m) as [nh0|]; [|discriminate]. destruct (m_elems m) as [eh|]; [|discriminate].
      intros H. apply Hb in H. destruct H as [H|(on & _ & H)].
      { cbn in H. apply Hb in H. destruct H as [H|(x & _ & H)]; [eapply Hg; eauto|].
        apply Hb in H. destruct H as [H|(y & _ & H)]; [eapply Hg; eauto|discriminate]. }
      destruct on as [nh|]; [|discriminate].
      apply Hb in H. destruct H as [H|(ob & _ & H)].
      { unfold fix_bounds_U in H. apply Hb in H. destruct H as [H|(h1 & _ & H)]; [eapply Hfold; [|exact H]; intros; apply Hadd|].
        destruct h1 as [h1|]; [|discriminate]. apply Hb in H. destruct H as [H|(y & _ & H)]; [eapply Hg; eauto|].
        apply Hb in H. destruct H as [H|(y2 & _ & H)]; [|discriminate].
        unfold uv_take in H. destruct (b_vals h1); apply Hb in H; destruct H as [H|(y3 & _ & H)]; try discriminate; eapply Hg; eauto. }
      apply Hb in H. destruct H as [H|(oe & _ & H)].
      { unfold fix_forces in H. destruct (m_forces m) as [h0|]; [|discriminate].
        apply Hb in H. destruct H as [H|(h1 & _ & H)]; [eapply Hfold; [|exact H]; intros; apply Haddf|].
        destruct h1 as [h1|]; [|discriminate]. apply Hb in H. destruct H as [H|(y & _ & H)]; [eapply Hg; eauto|].
        apply Hb in H. destruct H as [H|(y2 & _ & H)]; [eapply Hg; eauto|discriminate]. }
      destruct ob as [bh|]; [|discriminate]. destruct oe as [fh|]; [|discriminate].
      apply Hb in H. destruct H as [H|(c1 & _ & H)]; [eapply Hall; eauto|].
      apply Hb in H. destruct H as [H|(c2 & _ & H)]; [destruct c1; [eapply Hall; eauto|discriminate]|].
      destruct (negb c2); [discriminate|].
      apply Hb in H. destruct H as [H|(y & _ & H)]; [eapply Hg; eauto|].
      apply Hb in H. destruct H as [H|(y2 & _ & H)]; [eapply Hg; eauto|].
      apply Hb in H. destruct H as [H|(y3 & _ & H)]; [|discriminate].
      unfold analysis_build in H. apply Hb in H. destruct H as [H|(y4 & _ & H)]; [eapply Hg; eauto|discriminate].
  Qed.

  (** C03 *)
  Lemma build_dofs A m m' bs' :
    argsort_ok A -> build A m = Ok m' -> bounds_are (m_bounds m') bs' -> 2 <= length bs' ->
    (forall r, In r (map snd bs') -> length r = 3) ->
    exists u, m_built m' = Some u /\
      (forall k, In k (a_DOF1 (u_an u)) <->
         exists r, nth_error (map snd bs') (k / 3) = Some r /\ nth_error r (k mod 3) = Some 1%Z) /\
      (forall k, In k (a_DOF0 (u_an u)) <->
         exists r, nth_error (map snd bs') (k / 3) = Some r /\ nth_error r (k mod 3) = Some 0%Z) /\
      StronglySorted lt (a_DOF1 (u_an u)) /\ StronglySorted lt (a_DOF0 (u_an u)) /\
      u_ndof1 u = length (a_DOF1 (u_an u)).
  Proof.
    intros HA H Hb H2 H3.
    destruct (build_inv A m m' H) as (nh0 & eh & nh & bh & fh & D0 & D1 & an & E1 & E2 & Ef & Eb & Eo & C1 & C2 & Hd0 & Hd1 & Han & Em).
    cbn zeta in Em. subst m'. cbn [m_bounds m_built] in *. destruct Hb as [_ Hb].
    destruct (b_vals bh) as [l|w rows]; [destruct Hb as (n & ->); cbn in H2; lia|]. destruct Hb as [-> _]. cbn [uv_flatten] in *.
    eexists. split; [reflexivity|]. cbn [u_an u_ndof1].
    unfold dofs_with in *. apply gather_seq in Hd0, Hd1.
    unfold analysis_build in Han. mstep Han. injection Han as <-. cbn [a_DOF0 a_DOF1]. subst D0 D1.
    assert (HP : forall v k, In k (positions v (concat (map snd bs'))) <->
        exists r, nth_error (map snd bs') (k / 3) = Some r /\ nth_error r (k mod 3) = Some v).
    { intros v k. rewrite positions_In, (nth_error_concat_w 3) by (auto; lia). split.
      - destruct (nth_error (map snd bs') (k / 3)) as [r|]; [eauto|discriminate].
      - intros (r & -> & Hr). exact Hr. }
    split; [apply HP|]. split; [apply HP|]. split; [apply where_true_sorted|]. split; [apply where_true_sorted|reflexivity].
  Qed.

  (** C04, C09: the tables determine the built model. *)
  Lemma uvals_eq h1 h2 bs : bounds_are (Some h1) bs -> bounds_are (Some h2) bs -> 2 <= length bs -> h1 = h2.
  Proof.
    destruct h1 as [n1 [l1|w1 r1]], h2 as [n2 [l2|w2 r2]]; cbn; intros [-> H1] [-> H2] Hl;
      try (destruct H1 as (? & ->); cbn in Hl; lia); try (destruct H2 as (? & ->); cbn in Hl; lia).
    destruct H1 as [-> F1], H2 as [-> F2]. destruct bs as [|[a v] bs]; [cbn in Hl; lia|]. cbn in F1, F2. inv F1. inv F2. reflexivity.
  Qed.

  Lemma build_same A B m1 m2 m1' m2' ns1 bs1 fs1 ns2 bs2 fs2 :
    argsort_ok A -> argsort_ok B ->
    nodes_are (m_nodes m1) ns1 -> bounds_are (m_bounds m1) bs1 -> forces_are (m_forces m1) fs1 ->
    nodes_are (m_nodes m2) ns2 -> bounds_are (m_bounds m2) bs2 -> forces_are (m_forces m2) fs2 ->
    NoDup (map fst ns1) -> 2 <= length ns1 ->
    Permutation ns1 ns2 -> Permutation bs1 bs2 -> Permutation fs1 fs2 ->
    (forall h1 h2, m_forces m1 = Some h1 -> m_forces m2 = Some h2 -> e_width h1 = e_width h2) ->
    m_elems m1 = m_elems m2 -> m_set m1 = m_set m2 ->
    build A m1 = Ok m1' -> build B m2 = Ok m2' -> m1' = m2'.
  Proof.
    intros HA HB N1 B1 F1 N2 B2 F2 Hn Hl Pn Pb Pf Hw He Hs E1 E2.
    assert (Hn2 : NoDup (map fst ns2)) by (eapply Permutation_NoDup; [apply Permutation_map, Pn|auto]).
    assert (Hl2 : 2 <= length ns2) by (rewrite <- (Permutation_length Pn); auto).
    destruct (build_tables A m1 m1' ns1 bs1 fs1 HA N1 B1 F1 Hn Hl E1) as (Mb1 & Mf1 & ns1' & w1 & A1 & A2 & A3 & A4 & A5 & A5' & A5'' & A6 & A7).
    destruct (build_tables B m2 m2' ns2 bs2 fs2 HB N2 B2 F2 Hn2 Hl2 E2) as (Mb2 & Mf2 & ns2' & w2 & D1 & D2 & D3 & D4 & D5 & D5' & D5'' & D6 & D7).
    assert (Es : ns2' = ns1').
    { apply sorted_fst_unique.
      - rewrite D2, A2. apply Permutation_sym. exact Pn.
      - eapply Permutation_NoDup; [apply Permutation_map, Permutation_sym, D2|exact Hn2].
      - eapply StronglySorted_ind with (l := map fst ns2') (P := StronglySorted Z.le); [constructor| |exact D3].
        intros a l _ IH HF. constructor; auto. eapply Forall_impl; [|exact HF]. intros; lia.
      - eapply StronglySorted_ind with (l := map fst ns1') (P := StronglySorted Z.le); [constructor| |exact A3].
        intros a l _ IH HF. constructor; auto. eapply Forall_impl; [|exact HF]. intros; lia. }
    subst ns2'.
    destruct (build_inv A m1 m1' E1) as (nh0 & eh & nh & bh & fh & D0 & Da & an & X1 & X2 & X3 & X4 & X5 & X6 & X7 & X8 & X9 & X10 & X11).
    destruct (build_inv B m2 m2' E2) as (nh0' & eh' & nh' & bh' & fh' & D0' & Da' & an' & Y1 & Y2 & Y3 & Y4 & Y5 & Y6 & Y7 & Y8 & Y9 & Y10 & Y11).
    cbn zeta in X11, Y11, X10, Y10. subst m1' m2'. cbn [m_nodes m_bounds m_forces m_elems] in *.
    assert (eh' = eh) by congruence. subst eh'.
    assert (nh' = nh). { destruct nh, nh'. cbn in A1, D1. destruct A1 as [-> ->], D1 as [-> ->]. reflexivity. } subst nh'.
    rewrite <- (rows_for_perm bs1 bs2) in D4 by (auto; apply Mb1).
    assert (Hlb : 2 <= length (rows_for bs1 [1; 1; 1]%Z (map fst ns1'))) by (unfold rows_for; rewrite !map_length, (Permutation_length A2); auto).
    assert (bh' = bh) by (eapply uvals_eq; eauto). subst bh'.
    assert (w2 = w1).
    { destruct (m_forces m1) as [h1|] eqn:G1; [|discriminate X5]. destruct (m_forces m2) as [h2|] eqn:G2; [|discriminate Y5].
      rewrite <- (A5' _ eq_refl), <- (D5' _ eq_refl). symmetry. apply Hw; reflexivity. } subst w2.
    rewrite <- (rows_for_perm fs1 fs2) in D6 by (auto; apply Mf1).
    assert (fh' = fh).
    { pose proof (A5'' _ eq_refl) as W1. pose proof (D5'' _ eq_refl) as W2.
      destruct fh as [fn fw fr], fh' as [fn' fw' fr']. cbn in A6, D6, W1, W2. destruct A6 as (-> & -> & _), D6 as (-> & -> & _). congruence. }
    subst fh'.
    assert (Hln : length (n_labels nh0') = length (n_labels nh0)).
    { rewrite <- (fix_nodes_labels A HA nh0 nh X3), <- (fix_nodes_labels B HB nh0' nh Y3). reflexivity. }
    rewrite Hln in *. rewrite <- Hs in *. assert (D0' = D0) by congruence. assert (Da' = Da) by congruence. subst.

    assert (an' = an) by congruence. subst. reflexivity.
  Qed.
End Props.
