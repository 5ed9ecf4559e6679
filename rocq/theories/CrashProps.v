(** * Lemmas for PropCrash.v *)
From Coq Require Import List ZArith Bool Arith Lia Permutation Sorting.Sorted.
Import ListNotations.
From Verif Require Import Num Vec ListFacts Handlers Material Analysis Truss Equil Solver Run SpecBuild BuildFacts BuildProps EditFacts Crash CrashFacts SpecCrash.

Lemma gather_nt {A} (a : list A) ix : gather a ix <> Timeout.
Proof.
  induction ix as [|i ix IH]; cbn [gather]; [discriminate|]. destruct (nth_error a i); [|discriminate].
  destruct (gather a ix); cbn; try discriminate; congruence.
Qed.

Local Arguments del_rows : simpl never.
Local Arguments positions : simpl never.
Local Arguments delete_at : simpl never.
Local Arguments gather : simpl never.
Local Arguments uv_take : simpl never.
Local Arguments uv_vstack : simpl never.
Local Arguments tab_vstack : simpl never.

Lemma gather_short {A} (rows : list A) ix n : Permutation ix (seq 0 n) -> length rows < n -> forall r, gather rows ix <> Ok r.
Proof.
  intros Hp Hl r H. assert (Hi : In (length rows) ix) by (eapply Permutation_in; [apply Permutation_sym, Hp|apply in_seq; lia]).
  apply gather_map in H. apply in_map with (f := nth_error rows) in Hi. rewrite <- H in Hi. apply in_map_iff in Hi.
  destruct Hi as (x & E & _). symmetry in E. assert (length rows < length rows) by (apply nth_error_Some; congruence). lia.
Qed.

Section CrashProps.
  Context {F : Type} `{NF : Num F}.
  Notation XM := (xmodel F).
  Notation unit1 := (fun _ => tt).

  (** ** More labels than rows *)
  Definition torn_n (h : nodeX F) : Prop :=
    match xn_labels h, xn_coords h with
    | Some ls, Some cs => length cs < length ls | Some _, None => True | None, _ => False end.
  Definition torn_b (h : boundX) : Prop :=
    match xb_nodes h, xb_vals h with
    | Some ns, Some (UMat _ rows) => length rows < length ns | Some ns, Some (UFlat _) => 1 < length ns
    | Some _, None => True | None, _ => False end.
  Definition torn_f (h : forceX F) : Prop :=
    match xf_nodes h, xf_rows h with
    | Some ns, Some (_, rows) => length rows < length ns | Some _, None => True | None, _ => False end.
  Definition torn_e (o : option (elemH F)) : Prop :=
    match o with
    | None => False
    | Some h => length (t_rows (el_mat h)) < length (el_labels h) \/ length (t_rows (el_geo h)) < length (el_labels h)
    end.

  Lemma torn_n_add l c h t : torn_n h -> In t (visits (xadd_node l c) h) -> torn_n t.
  Proof.
    destruct h as [[ls|] [cs|]]; unfold torn_n; cbn; intros H; try contradiction; intros Hi;
      repeat (destruct Hi as [<-|Hi]; [cbn; rewrite ?app_length; cbn; auto; lia|]); contradiction.
  Qed.
  Lemma torn_b_add n v h t : torn_b h -> In t (visits (xadd_bound_U n v) h) -> torn_b t.
  Proof.
    destruct h as [[ns|] [[l|w rows]|]]; unfold torn_b; cbn; intros H; try contradiction; unfold abind, lift, upd, uv_vstack, raise; cbn;
      try (destruct (_ =? _)); cbn; intros Hi;
      repeat (destruct Hi as [<-|Hi]; [cbn; rewrite ?app_length; cbn; auto; lia|]); contradiction.
  Qed.
  Lemma torn_f_add n v h t : torn_f h -> In t (visits (xadd_force n v) h) -> torn_f t.
  Proof.
    destruct h as [[ns|] [[w rows]|]]; unfold torn_f; cbn; intros H; try contradiction; unfold abind, lift, upd, raise; cbn;
      try (destruct (_ =? _)); cbn; intros Hi;
      repeat (destruct Hi as [<-|Hi]; [cbn; rewrite ?app_length; cbn; auto; lia|]); contradiction.
  Qed.
  Lemma torn_e_add E h t : torn_e h -> In t (visits (xadd_element E) h) -> torn_e t.
  Proof.
    destruct h as [h|]; unfold torn_e; cbn; intros H; try contradiction. unfold abind, lift, upd, tab_vstack; cbn.
    destruct (length (l_mat E) =? _); [destruct (length (l_geo E) =? _)|]; cbn; intros Hi;
      repeat (destruct Hi as [<-|Hi]; [cbn; rewrite ?app_length; cbn; auto; lia|]); contradiction.
  Qed.

  Section Fix.
    Variable A : list Z -> list nat.
    Hypothesis HA : argsort_ok A.

    Lemma torn_n_fix h : torn_n h -> forall u, outcome (xfix_nodes A) h <> Ok u.
    Proof.
      destruct h as [[ls|] cs]; unfold torn_n; cbn; [|contradiction]. intros H u. unfold xfix_nodes, outcome, abind, get, lift, upd, raise. cbn.
      destruct (HA ls) as [Hp _]. destruct (gather ls (A ls)); cbn; try discriminate.
      destruct cs as [cs|]; cbn; [|discriminate]. destruct (gather cs (A ls)) eqn:E; cbn; try discriminate.
      exfalso. eapply gather_short; eauto.
    Qed.

    (** Not a single row kept flat. *)
    Definition torn_b2 (h : boundX) : Prop :=
      match xb_nodes h, xb_vals h with
      | Some ns, Some (UMat _ rows) => length rows < length ns | Some _, None => True | _, _ => False end.

    Lemma torn_b2_add n v h : torn_b2 h -> torn_b2 (final (xadd_bound_U n v) h).
    Proof.
      destruct h as [[ns|] [[l|w rows]|]]; unfold torn_b2; cbn; intros H; try contradiction; unfold final, xadd_bound_U, abind, get, lift, upd, uv_vstack, raise; cbn;
        try (destruct (_ =? _)); cbn; rewrite ?app_length; cbn; auto; lia.
    Qed.
    Lemma torn_b_to2 n v h : torn_b h -> outcome (xadd_bound_U n v) h = Ok tt -> torn_b2 (final (xadd_bound_U n v) h).
    Proof.
      destruct h as [[ns|] [[l|w rows]|]]; unfold torn_b, torn_b2; cbn; intros H; try contradiction; unfold outcome, final, xadd_bound_U, abind, get, lift, upd, uv_vstack, raise; cbn;
        try (destruct (_ =? _)); cbn; try discriminate; rewrite ?app_length; cbn; auto; lia.
    Qed.
    Lemma torn_b2_each l h : torn_b2 h -> torn_b2 (final (each (fun n => xadd_bound_U n [1; 1; 1]%Z) l) h).
    Proof.
      revert h. induction l as [|n l IH]; intros h H; cbn [each]; [exact H|]. rewrite final_bind.
      destruct (outcome (xadd_bound_U n [1; 1; 1]%Z) h); [apply IH| |]; apply torn_b2_add; auto.
    Qed.
    Lemma torn_b2_take h (u : unit) : torn_b2 h ->
      outcome (abind get (fun h => match xb_nodes h with
        | None => raise TypeError
        | Some ns => abind (lift (gather ns (A ns))) (fun ns' => abind (upd (set_bn ns')) (fun _ =>
            match xb_vals h with None => raise AttributeError
            | Some u => abind (lift (uv_take u (A ns))) (fun u' => upd (set_bv u')) end)) end)) h <> Ok u.
    Proof.
      destruct h as [[ns|] [[l|w rows]|]]; unfold torn_b2; cbn; intros H; try contradiction; unfold outcome, abind, get, lift, upd, raise; cbn;
        destruct (gather ns (A ns)); cbn; try discriminate.
      unfold uv_take. destruct (HA ns) as [Hp _]. destruct (gather rows (A ns)) eqn:E; cbn; try discriminate. exfalso. eapply gather_short; eauto.
    Qed.

    Lemma torn_b_fix L h : torn_b h ->
      (exists w rows, xb_vals h = Some (UMat w rows)) \/ xb_vals h = None \/ (exists l, In l L /\ (forall ns, xb_nodes h = Some ns -> ~ In l ns)) ->
      forall u, outcome (xfix_bounds_U A L) h <> Ok u.
    Proof.
      intros H Hc u. unfold xfix_bounds_U. rewrite outcome_bind. cbn [outcome get snd final fst last].
      set (have := match xb_nodes h with None => [] | Some ns => ns end). rewrite outcome_bind.
      destruct (outcome (each _ _) h) as [[]| |] eqn:Eo; try discriminate. apply torn_b2_take.
      assert (H2 : torn_b2 h \/ missing L have <> []).
      { destruct h as [[ns|] [[l|w rows]|]]; unfold torn_b in H; cbn in H; try contradiction; unfold torn_b2; cbn; auto.
        destruct Hc as [(w & rows & E)|[E|(x & Hx & Hn)]]; try discriminate. right. intros E.
        assert (Hm : In x (missing L have)) by (apply missing_In; split; auto; apply Hn; reflexivity). exact (eq_rect _ (fun l => In x l) Hm _ E). }
      destruct H2 as [H2|H2]; [apply torn_b2_each; auto|].
      destruct (missing L have) as [|n l]; [congruence|]. cbn [each] in *. rewrite outcome_bind in Eo. rewrite final_bind.
      destruct (outcome (xadd_bound_U n [1; 1; 1]%Z) h) as [[]| |] eqn:E1; try discriminate. apply torn_b2_each. apply torn_b_to2; auto.
    Qed.

    Lemma torn_f_fix L h : torn_f h -> forall u, outcome (xfix_forces A L) h <> Ok u.
    Proof.
      intros H u. unfold xfix_forces. rewrite outcome_bind. cbn [outcome get snd final fst last].
      destruct (xf_rows h) as [[w rows0]|] eqn:Er; [|discriminate]. rewrite outcome_bind.
      destruct (outcome (each _ _) h) as [[]| |] eqn:Eo; try discriminate.
      assert (H2 : torn_f (final (each (fun n => xadd_force n (repeat f0 w)) (missing L match xf_nodes h with None => [] | Some ns => ns end)) h)).
      { clear Eo. generalize (missing L match xf_nodes h with None => [] | Some ns => ns end). intros l. clear Er.
        revert h H. induction l as [|n l IH]; intros h H; cbn [each]; [exact H|]. rewrite final_bind.
        pose proof (torn_f_add _ _ _ _ H (visits_final (xadd_force n (repeat f0 w)) h)). destruct (outcome _ _); auto. }
      revert H2. generalize (final (each (fun n => xadd_force n (repeat f0 w)) (missing L match xf_nodes h with None => [] | Some ns => ns end)) h).
      clear - HA. intros h H. rewrite outcome_bind. cbn [outcome get snd final fst last].
      destruct h as [[ns|] [[w rows]|]]; unfold torn_f in H; cbn in H |- *; try contradiction; unfold outcome, abind, get, lift, upd, raise; cbn;
        destruct (gather ns (A ns)); cbn; try discriminate.
      destruct (HA ns) as [Hp _]. destruct (gather rows (A ns)) eqn:E; cbn; try discriminate. exfalso. eapply gather_short; eauto.
    Qed.
  End Fix.

  (** An evaluation reads the rows of every element. *)
  Lemma torn_e_eval h (c : ctx F) V V0 w a b : c_elems c = h -> torn_e (Some h) -> equilibrium c V V0 w a <> Ok b.
  Proof.
    intros Ec H E. unfold equilibrium in E. apply bind_ok in E. destruct E as ([[an1 Ur] lpf] & _ & E). apply bind_ok in E. destruct E as (an2 & E & _).
    unfold elem_loop in E. apply bind_ok in E. destruct E as (s & E & _). rewrite Ec in E.
    assert (Hn : el_labels h <> []) by (intros En; cbn in H; rewrite En in H; cbn in H; lia).
    destruct (exists_last Hn) as (ls & l & El). rewrite El, foldM_app in E. apply bind_ok in E. destruct E as (s1 & _ & E).
    cbn [foldM] in E. apply bind_ok in E. destruct E as (s2 & E & _). unfold elem_step in E. rewrite Ec in E.
    apply bind_ok in E. destruct E as ([NA NE] & _ & E). apply bind_ok in E. destruct E as (mp & Em & E). apply bind_ok in E. destruct E as (gp & Eg & _).
    assert (Hg : forall (rows : list (list F)) x, length rows < length (el_labels h) -> gather0 rows (positions l (el_labels h)) <> Ok x).
    { intros rows x Hl Hx. unfold gather0 in Hx. apply bind_ok in Hx. destruct Hx as (xs & Hx & _).
      assert (Hi : In (length ls) (positions l (el_labels h))) by (apply positions_In; rewrite El, nth_error_app2, Nat.sub_diag by lia; reflexivity).
      apply gather_map in Hx. apply in_map with (f := nth_error rows) in Hi. rewrite <- Hx in Hi. apply in_map_iff in Hi.
      destruct Hi as (y & E1 & _). symmetry in E1. assert (length ls < length rows) by (apply nth_error_Some; congruence).
      rewrite El, app_length in Hl. cbn in Hl. lia. }
    cbn in H. destruct H as [H|H]; eapply Hg; eauto.
  Qed.

  (** ** Calls on a proper model *)
  Lemma xcall_follows (m : model F) c : follows x_of unit1 (does m c) (xcall c) (x_of m).
  Proof.
    destruct m as [nodes elems bounds forces st built].
    destruct c as [l x|n v|n f|E]; cbn [does xcall m_nodes m_bounds m_forces m_elems m_set m_built].
    - apply (zoom_goes x_nodes put_nodes put_nodes_same (xadd_node l x) (x_of (Model nodes elems bounds forces st built)) _ _ (xadd_node_follows nodes l x)).
    - pose proof (xadd_bound_follows bounds n v) as H. unfold in_bounds, follows in *.
      destruct (add_bound_U bounds n v) as [o| |]; cbn [bind]; [|rewrite zoom_outcome; exact H|rewrite zoom_outcome; exact H].
      apply (zoom_goes x_bounds put_bounds put_bounds_same (xadd_bound_U n v) (x_of (Model nodes elems bounds forces st built)) _ _ H).
    - pose proof (xadd_force_follows forces n f) as H. unfold in_forces, follows in *.
      destruct (add_force forces n f) as [o| |]; cbn [bind]; [|rewrite zoom_outcome; exact H|rewrite zoom_outcome; exact H].
      apply (zoom_goes x_forces put_forces put_forces_same (xadd_force n f) (x_of (Model nodes elems bounds forces st built)) _ _ H).
    - pose proof (xadd_element_follows elems E) as H. unfold in_elems, follows in *.
      destruct (add_element elems E) as [o| |]; cbn [bind]; [|rewrite zoom_outcome; exact H|rewrite zoom_outcome; exact H].
      apply (zoom_goes x_elems put_elems put_elems_same (xadd_element E) (x_of (Model nodes elems bounds forces st built)) _ _ H).
  Qed.

  Definition aligned (m : model F) : Prop :=
    (forall h, m_nodes m = Some h -> length (n_coords h) = length (n_labels h)) /\
    (forall h, m_bounds m = Some h -> match b_vals h with UFlat _ => length (b_nodes h) = 1 | UMat _ rows => length rows = length (b_nodes h) end) /\
    (forall h, m_forces m = Some h -> length (e_rows h) = length (e_nodes h)) /\
    (forall h, m_elems m = Some h -> length (t_rows (el_mat h)) = length (el_labels h) /\ length (t_rows (el_geo h)) = length (el_labels h)).

  Lemma does_aligned m c m' : aligned m -> does m c = Ok m' -> aligned m'.
  Proof.
    destruct m as [nodes elems bounds forces st built]. intros (H1 & H2 & H3 & H4) H. cbn in H1, H2, H3, H4.
    destruct c as [l x|n v|n f|E]; cbn [does m_nodes m_bounds m_forces m_elems m_set m_built] in H.
    - injection H as <-. split; [|auto]. cbn. destruct nodes as [h|]; cbn; intros h' E; injection E as <-; cbn; rewrite ?app_length; cbn; auto.
    - mstep H. injection H as <-. split; [auto|]. split; [|auto]. cbn. destruct bounds as [h|]; cbn in Ha.
      + mstep Ha. injection Ha as <-. intros h' E. injection E as <-. cbn. specialize (H2 h eq_refl). unfold uv_vstack in Ha0.
        destruct (b_vals h); destruct (_ =? _); try discriminate; injection Ha0 as <-; cbn; rewrite ?app_length; cbn; lia.
      + injection Ha as <-. intros h' E. injection E as <-. reflexivity.
    - mstep H. injection H as <-. split; [auto|]. split; [auto|]. split; [|auto]. cbn. destruct forces as [h|]; cbn in Ha.
      + destruct (_ =? _); [|discriminate]. injection Ha as <-. intros h' E. injection E as <-. cbn. rewrite !app_length, (H3 h eq_refl). reflexivity.
      + injection Ha as <-. intros h' E. injection E as <-. reflexivity.
    - mstep H. injection H as <-. split; [auto|]. split; [auto|]. split; [auto|]. cbn. destruct elems as [h|]; cbn in Ha.
      + mstep Ha. mstep Ha. injection Ha as <-. intros h' E'. injection E' as <-. cbn. destruct (H4 h eq_refl) as [K1 K2].
        unfold tab_vstack in Ha0, Ha1. destruct (_ =? _); [|discriminate]. injection Ha0 as <-. destruct (_ =? _); [|discriminate]. injection Ha1 as <-.
        cbn. rewrite !app_length. cbn. split; congruence.
      + injection Ha as <-. intros h' E'. injection E' as <-. split; reflexivity.
  Qed.

  (** Where a call on a proper model can stop. *)
  Lemma call_stops m c t : aligned m -> In t (visits (xcall c) (x_of m)) ->
    t = x_of m \/ (exists m', does m c = Ok m' /\ t = x_of m') \/
    torn_n (x_nodes t) \/ torn_b (x_bounds t) \/ torn_f (x_forces t) \/ (torn_e (x_elems t) /\ exists E, c = AddElement E).
  Proof.
    destruct m as [nodes elems bounds forces st built]. intros (H1 & H2 & H3 & H4) Hi. cbn in H1, H2, H3, H4.
    destruct c as [l x|n v|n f|E]; cbn [does xcall] in *.
    - apply zoom_visits in Hi; [|apply put_nodes_same]. destruct Hi as (u & Hu & ->). destruct nodes as [[ls cs]|]; cbn in Hu.
      + specialize (H1 _ eq_refl). cbn in H1. destruct Hu as [<-|[<-|[<-|[]]]]; [left; reflexivity| |right; left; eexists; split; reflexivity].
        right; right; left. unfold torn_n. cbn. rewrite app_length. cbn. lia.
      + destruct Hu as [<-|[<-|[<-|[]]]]; [left; reflexivity| |right; left; eexists; split; reflexivity].
        right; right; left. unfold torn_n. cbn. auto.
    - apply zoom_visits in Hi; [|apply put_bounds_same]. destruct Hi as (u & Hu & ->). destruct bounds as [[ns vs]|]; cbn in Hu |- *.
      + specialize (H2 _ eq_refl). cbn in H2. unfold abind, lift, upd in Hu. cbn in Hu.
        assert (T : torn_b (set_bn (ns ++ [n]) (BoundX (Some ns) (Some vs)))) by (unfold torn_b; cbn; rewrite app_length; cbn; destruct vs; lia).
        destruct (uv_vstack vs v) as [vs'| |]; cbn in Hu; (destruct Hu as [<-|[<-|Hu]]; [left; reflexivity|right; right; right; left; exact T|]); try contradiction.
        destruct Hu as [<-|[]]. right; left. eexists. split; reflexivity.
      + destruct Hu as [<-|[<-|[<-|[]]]]; [left; reflexivity| |right; left; eexists; split; reflexivity].
        right; right; right; left. unfold torn_b. cbn. auto.
    - apply zoom_visits in Hi; [|apply put_forces_same]. destruct Hi as (u & Hu & ->). destruct forces as [[ns w rows]|]; cbn in Hu |- *.
      + specialize (H3 _ eq_refl). cbn in H3. unfold abind, upd in Hu. cbn in Hu.
        destruct (w =? length f) eqn:Ew; cbn in Hu; (destruct Hu as [<-|[<-|Hu]]; [left; reflexivity| |]).
        * right; right; right; right; left. unfold torn_f. cbn. rewrite app_length. cbn. lia.
        * destruct Hu as [<-|[]]. right; left. eexists. split; reflexivity.
        * right; right; right; right; left. unfold torn_f. cbn. rewrite app_length. cbn. lia.
        * contradiction.
      + destruct Hu as [<-|[<-|[<-|[]]]]; [left; reflexivity| |right; left; eexists; split; reflexivity].
        right; right; right; right; left. unfold torn_f. cbn. auto.
    - apply zoom_visits in Hi; [|apply put_elems_same]. destruct Hi as (u & Hu & ->). destruct elems as [h|]; cbn in Hu |- *.
      + destruct (H4 _ eq_refl) as [K1 K2]. unfold abind, upd, lift in Hu. cbn in Hu.
        assert (T : forall mt, torn_e (Some (ElemH (el_labels h ++ [l_label E]) (el_conns h ++ [l_conn E]) (el_etype h ++ [l_etype E]) (el_mtype h ++ [l_mtype E]) mt (el_geo h))))
          by (intros mt; unfold torn_e; cbn; rewrite app_length; cbn; lia).
        destruct (tab_vstack (el_mat h) (l_mat E)) as [mt| |] eqn:Em; cbn in Hu;
          [destruct (tab_vstack (el_geo h) (l_geo E)) as [g| |]; cbn in Hu| |];
          (destruct Hu as [<-|[<-|Hu]]; [left; reflexivity|right; right; right; right; right; split; [apply T|eauto]|]); try contradiction;
          (destruct Hu as [<-|Hu]; [right; right; right; right; right; split; [apply T|eauto]|]); try contradiction.
        destruct Hu as [<-|[]]. right; left. eexists. split; reflexivity.
      + destruct Hu as [<-|[<-|[]]]; [left; reflexivity|right; left; eexists; split; reflexivity].
  Qed.

  (** A call does not mend another's damage. *)
  Lemma call_torn c s t : In t (visits (xcall c) s) ->
    (torn_n (x_nodes s) -> torn_n (x_nodes t)) /\ (torn_b (x_bounds s) -> torn_b (x_bounds t)) /\
    (torn_f (x_forces s) -> torn_f (x_forces t)) /\ (torn_e (x_elems s) -> torn_e (x_elems t)).
  Proof.
    destruct c as [l x|n v|n f|E]; cbn [xcall]; intros Hi.
    - apply zoom_visits in Hi; [|apply put_nodes_same]. destruct Hi as (u & Hu & ->). cbn. repeat split; auto. intros H. eapply torn_n_add; eauto.
    - apply zoom_visits in Hi; [|apply put_bounds_same]. destruct Hi as (u & Hu & ->). cbn. repeat split; auto. intros H. eapply torn_b_add; eauto.
    - apply zoom_visits in Hi; [|apply put_forces_same]. destruct Hi as (u & Hu & ->). cbn. repeat split; auto. intros H. eapply torn_f_add; eauto.
    - apply zoom_visits in Hi; [|apply put_elems_same]. destruct Hi as (u & Hu & ->). cbn. repeat split; auto. intros H. eapply torn_e_add; eauto.
  Qed.

  (** ** Histories *)
  Definition state_inv st (att : list (call F * bool)) (s : XM) : Prop :=
    (exists cs m, took att cs /\ foldM does cs (fresh st) = Ok m /\ aligned m /\ s = x_of m) \/
    torn_n (x_nodes s) \/ torn_b (x_bounds s) \/ torn_f (x_forces s) \/
    (torn_e (x_elems s) /\ exists E, In (AddElement E, false) att).

  Lemma tried_inv st att s : tried att (x_of (fresh st)) s -> state_inv st att s.
  Proof.
    remember (x_of (fresh st)) as s0 eqn:E0. induction 1 as [s|att s t c Ht IH Ho|att s t c t' Ht IH Hi].
    - left. exists [], (fresh st). split; [constructor|]. split; [reflexivity|]. split; [|auto]. repeat split; discriminate.
    - specialize (IH E0).
      assert (Hi : In (final (xcall c) t) (visits (xcall c) t)) by apply visits_final.
      destruct IH as [(cs & m & Hk & Hf & Ha & ->)|IH].
      + pose proof (xcall_follows m c) as Hx. unfold follows in Hx.
        destruct (does m c) as [m'| |] eqn:Ed; [|congruence|congruence]. destruct Hx as [Hx _].
        left. exists (cs ++ [c]), m'. split; [constructor; auto|]. split; [rewrite foldM_app, Hf; cbn; rewrite Ed; reflexivity|].
        split; [eapply does_aligned; eauto|auto].
      + right. destruct (call_torn _ _ _ Hi) as (T1 & T2 & T3 & T4).
        destruct IH as [H|[H|[H|(H & E & HE)]]]; auto. right; right; right. split; auto. exists E. apply in_app_iff. auto.
    - specialize (IH E0). destruct IH as [(cs & m & Hk & Hf & Ha & ->)|IH].
      + destruct (call_stops m c t' Ha Hi) as [->|[(m' & Ed & ->)|H]].
        * left. exists cs, m. split; [constructor; auto|]. auto.
        * left. exists (cs ++ [c]), m'. split; [constructor; auto|]. split; [rewrite foldM_app, Hf; cbn; rewrite Ed; reflexivity|].
          split; [eapply does_aligned; eauto|auto].
        * right. destruct H as [H|[H|[H|(H & E & ->)]]]; auto. right; right; right. split; auto. exists E. apply in_app_iff. right. left. auto.
      + right. destruct (call_torn _ _ _ Hi) as (T1 & T2 & T3 & T4).
        destruct IH as [H|[H|[H|(H & E & HE)]]]; auto. right; right; right. split; auto. exists E. apply in_app_iff. auto.
  Qed.

  (** Facts about the support table during a history. *)
  Definition bound_inv (att : list (call F * bool)) (s : XM) : Prop :=
    (xb_vals (x_bounds s) = None -> supports_given att = 0) /\
    (forall l, xb_vals (x_bounds s) = Some (UFlat l) -> supports_given att <= 1) /\
    (forall n ns, xb_nodes (x_bounds s) = Some ns -> In n ns -> exists v b, In (AddBound n v, b) att) /\
    (forall l x, In (AddNode l x, true) att -> exists ls, xn_labels (x_nodes s) = Some ls /\ In l ls) /\
    (xb_nodes (x_bounds s) = None -> xb_vals (x_bounds s) = None).

  Lemma given_app (att : list (call F * bool)) c b : supports_given (att ++ [(c, b)]) =
    supports_given att + match c, b with AddBound _ _, true => 1 | _, _ => 0 end.
  Proof. unfold supports_given. rewrite filter_app, app_length. destruct c, b; reflexivity. Qed.

  Lemma nodes_keep c s t : In t (visits (xcall c) s) -> forall ls, xn_labels (x_nodes s) = Some ls -> exists ls', xn_labels (x_nodes t) = Some (ls ++ ls').
  Proof.
    destruct c as [l x|n v|n f|E]; cbn [xcall]; intros Hi ls Hl.
    - apply zoom_visits in Hi; [|apply put_nodes_same]. destruct Hi as (u & Hu & ->). cbn.
      destruct (x_nodes s) as [ls0 cs]. cbn in Hl. subst ls0. cbn in Hu.
      destruct cs; cbn in Hu; repeat (destruct Hu as [<-|Hu]; [cbn; eauto; exists []; rewrite app_nil_r; auto|]); contradiction.
    - apply zoom_visits in Hi; [|apply put_bounds_same]. destruct Hi as (u & Hu & ->). cbn. exists []. rewrite app_nil_r. auto.
    - apply zoom_visits in Hi; [|apply put_forces_same]. destruct Hi as (u & Hu & ->). cbn. exists []. rewrite app_nil_r. auto.
    - apply zoom_visits in Hi; [|apply put_elems_same]. destruct Hi as (u & Hu & ->). cbn. exists []. rewrite app_nil_r. auto.
  Qed.

  Lemma bound_step s c t : In t (visits (xcall c) s) ->
    x_bounds t = x_bounds s \/ exists n v, c = AddBound n v /\ In (x_bounds t) (visits (xadd_bound_U n v) (x_bounds s)).
  Proof.
    destruct c as [l x|n v|n f|E]; cbn [xcall]; intros Hi.
    - apply zoom_visits in Hi; [|apply put_nodes_same]. destruct Hi as (u & Hu & ->). auto.
    - apply zoom_visits in Hi; [|apply put_bounds_same]. destruct Hi as (u & Hu & ->). right. exists n, v. auto.
    - apply zoom_visits in Hi; [|apply put_forces_same]. destruct Hi as (u & Hu & ->). auto.
    - apply zoom_visits in Hi; [|apply put_elems_same]. destruct Hi as (u & Hu & ->). auto.
  Qed.

  (** What the steps of [add_bound_U] do to the table. *)
  Lemma add_bound_visits n v h t : In t (visits (xadd_bound_U n v) h) ->
    (forall x ns', xb_nodes t = Some ns' -> In x ns' -> x = n \/ exists ns, xb_nodes h = Some ns /\ In x ns) /\
    (xb_vals t = None -> xb_vals h = None) /\
    (forall l, xb_vals t = Some (UFlat l) -> xb_vals h = Some (UFlat l) \/ xb_nodes h = None) /\
    (xb_nodes t = None -> t = h).
  Proof.
    destruct h as [[ns|] vs]; cbn; unfold abind, lift, upd, raise; cbn.
    - assert (K : forall x, In x (ns ++ [n]) -> x = n \/ exists ns0, Some ns = Some ns0 /\ In x ns0).
      { intros x Hx. apply in_app_iff in Hx. destruct Hx as [Hx|[Hx|[]]]; eauto. }
      destruct vs as [u|]; cbn; [destruct (uv_vstack u v) as [u'| |] eqn:Eu; cbn|]; intros Hi;
        repeat (destruct Hi as [<-|Hi]; [cbn; split; [intros x ns' E Hx; injection E as <-; eauto|]; split; [congruence|]; split; [|congruence];
          intros l0 El; first [left; congruence|exfalso; unfold uv_vstack in Eu; destruct u; destruct (_ =? _); congruence]|]); contradiction.
    - intros Hi. destruct Hi as [<-|[<-|[<-|[]]]]; cbn.
      + split; [congruence|]. split; [auto|]. split; auto.
      + split; [intros x ns' E Hx; injection E as <-; destruct Hx as [<-|[]]; auto|]. split; [auto|]. split; [auto|congruence].
      + split; [intros x ns' E Hx; injection E as <-; destruct Hx as [<-|[]]; auto|]. split; [congruence|]. split; [auto|congruence].
  Qed.

  Lemma tried_bound st att s : tried att (x_of (fresh st)) s -> bound_inv att s.
  Proof.
    remember (x_of (fresh st)) as s0 eqn:E0.
    assert (Step : forall att s c t b, bound_inv att s -> In t (visits (xcall c) s) ->
              (b = true -> outcome (xcall c) s = Ok tt /\ t = final (xcall c) s) -> bound_inv (att ++ [(c, b)]) t).
    { clear. intros att s c t b (I1 & I2 & I3 & I4 & I5) Hi Hb. unfold bound_inv. rewrite given_app.
      assert (J4 : forall l x, In (AddNode l x, true) (att ++ [(c, b)]) -> exists ls, xn_labels (x_nodes t) = Some ls /\ In l ls).
      { intros l x Hx. apply in_app_iff in Hx. destruct Hx as [Hx|[Hx|[]]].
        - destruct (I4 l x Hx) as (ls & E & Hl). destruct (nodes_keep c s t Hi ls E) as (ls' & E'). exists (ls ++ ls'). split; auto. apply in_app_iff. auto.
        - injection Hx as -> ->. destruct (Hb eq_refl) as [Ho ->]. cbn [xcall] in *. unfold in_nodes in *.
          rewrite zoom_outcome in Ho. rewrite zoom_final by apply put_nodes_same. cbn. destruct (x_nodes s) as [[ls|] [cs|]]; cbn in Ho |- *; try discriminate;
            eexists; (split; [reflexivity|]); try (apply in_app_iff; right); left; reflexivity. }
      destruct (bound_step s c t Hi) as [Et|(n & v & -> & Hv)].
      - rewrite Et.
        assert (E : match c, b with AddBound _ _, true => 1 | _, _ => 0 end = 0 \/ exists n v, c = AddBound n v /\ b = true)
          by (destruct c, b; auto; right; eauto).
        destruct E as [E|(n & v & -> & ->)].
        + rewrite E, Nat.add_0_r. split; [auto|]. split; [auto|]. split; [|split; auto].
          intros n ns En Hn. destruct (I3 n ns En Hn) as (v & b' & Hx). exists v, b'. apply in_app_iff. auto.
        + exfalso. destruct (Hb eq_refl) as [Ho ->]. cbn [xcall] in *. unfold in_bounds in *. rewrite zoom_outcome in Ho. rewrite zoom_final in Et by apply put_bounds_same. cbn in Et.
          destruct (x_bounds s) as [[ns|] [u|]]; cbn in Ho, Et; unfold final, outcome, xadd_bound_U, abind, get, lift, upd, raise in *; cbn in *; try discriminate.
          destruct (uv_vstack u v); cbn in *; try discriminate. injection Et as Et _. apply (f_equal (@length Z)) in Et. rewrite app_length in Et. cbn in Et. lia.
      - destruct (add_bound_visits n v _ _ Hv) as (V1 & V2 & V3 & V4).
        assert (J3 : forall x ns, xb_nodes (x_bounds t) = Some ns -> In x ns -> exists v0 b0, In (AddBound x v0, b0) (att ++ [(AddBound n v, b)])).
        { intros x ns En Hx. destruct (V1 x ns En Hx) as [->|(ns0 & E & H0)]; [exists v, b; apply in_app_iff; right; left; auto|].
          destruct (I3 x ns0 E H0) as (v0 & b0 & Hy). exists v0, b0. apply in_app_iff. auto. }
        assert (J5 : xb_nodes (x_bounds t) = None -> xb_vals (x_bounds t) = None) by (intros E; rewrite (V4 E); apply I5; rewrite <- (V4 E); auto).
        destruct b.
        + destruct (Hb eq_refl) as [Ho Et]. cbn [xcall] in *. unfold in_bounds in *. rewrite zoom_outcome in Ho. rewrite zoom_final in Et by apply put_bounds_same.
          assert (Et' : x_bounds t = final (xadd_bound_U n v) (x_bounds s)) by (rewrite Et; reflexivity).
          assert (K : xb_vals (x_bounds t) <> None /\ forall l, xb_vals (x_bounds t) = Some (UFlat l) -> xb_nodes (x_bounds s) = None).
          { rewrite Et'. clear - Ho. destruct (x_bounds s) as [[ns|] [u|]]; unfold final, outcome, xadd_bound_U, abind, get, lift, upd, raise in *; cbn in *; try discriminate.
            - destruct (uv_vstack u v) eqn:Eu; cbn in *; try discriminate. split; [discriminate|]. intros l E. exfalso. unfold uv_vstack in Eu. destruct u; destruct (_ =? _); congruence.
            - split; [discriminate|auto].
            - split; [discriminate|auto]. }
          destruct K as [K1 K2]. split; [congruence|]. split; [|auto]. intros l El. rewrite (I1 (I5 (K2 l El))). lia.
        + rewrite Nat.add_0_r. split; [auto|]. split; [|auto]. intros l El. destruct (V3 l El) as [E|E]; [eauto|]. rewrite (I1 (I5 E)). lia. }
    induction 1 as [s|att s t c Ht IH Ho|att s t c t' Ht IH Hi].
    - subst. unfold bound_inv. cbn. repeat split; intros; try discriminate; try contradiction; auto.
    - apply (Step att t c _ true); auto. apply visits_final.
    - apply (Step att t c _ false); auto. discriminate.
  Qed.

  (** ** Reading [xbuild] backwards *)
  Lemma xbuild_ok_inv A (s : XM) : outcome (xbuild A) s = Ok tt ->
    outcome (xfix_nodes A) (x_nodes s) = Ok tt /\
    exists L, xn_labels (final (xfix_nodes A) (x_nodes s)) = Some L /\
      outcome (xfix_bounds_U A L) (x_bounds s) = Ok tt /\ outcome (xfix_forces A L) (x_forces s) = Ok tt.
  Proof.
    intros H. unfold xbuild in H. rewrite outcome_bind in H. cbn [outcome upd snd final fst last] in H. rewrite outcome_bind in H. cbn [outcome upd snd final fst last] in H.
    rewrite outcome_bind in H. cbn [outcome get snd final fst last] in H. rewrite outcome_bind in H.
    cbn [x_nodes put_an put_res] in H. destruct (xn_labels (x_nodes s)) as [ls|]; cbn [need ret raise outcome snd] in H; [|discriminate].
    cbn zeta in H. cbn [need ret final fst last] in H. rewrite outcome_bind in H. cbn [outcome upd snd final fst last] in H. rewrite outcome_bind in H.
    cbn [x_elems put_an put_res] in H. destruct (x_elems s) as [eh|]; cbn [need ret raise outcome snd] in H; [|discriminate].
    cbn zeta in H. cbn [need ret final fst last] in H. rewrite outcome_bind in H. unfold in_nodes in H at 1. rewrite zoom_outcome in H.
    cbn [x_nodes put_nnodes put_an put_res] in H.
    destruct (outcome (xfix_nodes A) (x_nodes s)) as [[]| |] eqn:E1; [|discriminate|discriminate]. split; [reflexivity|].
    unfold in_nodes in H. rewrite zoom_final in H by apply put_nodes_same. cbn [x_nodes put_nnodes put_an put_res] in H.
    rewrite outcome_bind in H. cbn [outcome get snd final fst last] in H. rewrite outcome_bind in H. cbn [x_nodes put_nodes] in H.
    destruct (xn_labels (final (xfix_nodes A) (x_nodes s))) as [L|] eqn:EL; cbn [need ret raise outcome snd] in H; [|discriminate].
    exists L. split; [reflexivity|]. cbn [need ret final fst last] in H. rewrite outcome_bind in H. unfold in_bounds in H at 1. rewrite zoom_outcome in H.
    cbn [x_bounds put_nodes put_nnodes put_an put_res] in H.
    destruct (outcome (xfix_bounds_U A L) (x_bounds s)) as [[]| |] eqn:E2; [|discriminate|discriminate]. split; [reflexivity|].
    unfold in_bounds in H. rewrite zoom_final in H by apply put_bounds_same. rewrite outcome_bind in H. unfold in_forces in H at 1. rewrite zoom_outcome in H.
    cbn [x_forces put_bounds put_nodes put_nnodes put_an put_res] in H.
    destruct (outcome (xfix_forces A L) (x_forces s)) as [[]| |] eqn:E3; [|discriminate|discriminate]. reflexivity.
  Qed.

  Lemma fix_nodes_perm A (h : nodeX F) L : argsort_ok A -> outcome (xfix_nodes A) h = Ok tt -> xn_labels (final (xfix_nodes A) h) = Some L ->
    exists ls, xn_labels h = Some ls /\ Permutation L ls.
  Proof.
    intros HA. destruct h as [[ls|] cs]; unfold xfix_nodes, outcome, final, abind, get, lift, upd, raise; cbn; [|discriminate].
    destruct (HA ls) as [Hp _]. destruct (gather ls (A ls)) eqn:E; cbn; try discriminate.
    destruct cs as [cs|]; cbn; [|discriminate]. destruct (gather cs (A ls)); cbn; try discriminate.
    intros _ EL. injection EL as <-. exists ls. split; auto. eapply gather_perm; eauto.
  Qed.
End CrashProps.
