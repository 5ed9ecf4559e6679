(** * Facts about the handlers and Model.build *)
From Coq Require Import List ZArith Bool Arith Lia Permutation Sorting.Sorted.
Import ListNotations.
From Verif Require Import Num Vec Handlers Material Analysis Truss Equil Solver Run ListFacts SpecBuild.

(** ** Sorting *)
Lemma perm_map_Some {A} (l1 l2 : list A) : Permutation (map Some l1) (map Some l2) -> Permutation l1 l2.
Proof.
  intros H. pose (g := fun o : option A => match o with Some a => [a] | None => [] end).
  assert (E : forall l, flat_map g (map Some l) = l) by (intros l; induction l; cbn; congruence).
  rewrite <- (E l1), <- (E l2). apply Permutation_flat_map. exact H.
Qed.

Lemma map_nth_error_seq {A} (l : list A) : map (nth_error l) (seq 0 (length l)) = map Some l.
Proof.
  apply nth_error_ext. intros i. rewrite !nth_error_map, nth_error_seq.
  destruct (Nat.ltb_spec i (length l)) as [H|H]; cbn.
  - destruct (nth_error l i) eqn:E; auto. apply nth_error_None in E. lia.
  - rewrite (proj2 (nth_error_None l i)) by lia. reflexivity.
Qed.

Lemma gather_perm {A} (l : list A) ix r : Permutation ix (seq 0 (length l)) -> gather l ix = Ok r -> Permutation r l.
Proof.
  intros Hp H. apply gather_map in H. apply perm_map_Some. rewrite H, <- map_nth_error_seq.
  apply Permutation_map. exact Hp.
Qed.

Lemma sorted_take {B} A (rows : list (Z * B)) : argsort_ok A ->
  exists rows', gather (map fst rows) (A (map fst rows)) = Ok (map fst rows') /\
    gather (map snd rows) (A (map fst rows)) = Ok (map snd rows') /\
    Permutation rows' rows /\ StronglySorted Z.le (map fst rows').
Proof.
  intros HA. destruct (HA (map fst rows)) as [Hp Hs]. rewrite map_length in Hp.
  destruct (gather_ok rows (A (map fst rows))) as [rows' Hr].
  { intros i Hi. apply (Permutation_in _ Hp), in_seq in Hi. lia. }
  exists rows'. pose proof (gather_fmap fst _ _ _ Hr) as H1. pose proof (gather_fmap snd _ _ _ Hr) as H2.
  split; [exact H1|]. split; [exact H2|]. split; [eapply gather_perm; eauto|].
  replace (map fst rows') with (map (fun i => nth i (map fst rows) 0%Z) (A (map fst rows))); [exact Hs|].
  destruct (gather_nth _ _ _ H1) as [Hl Hn]. apply nth_error_ext. intros k. rewrite nth_error_map.
  destruct (nth_error (A (map fst rows)) k) as [i|] eqn:E; cbn.
  - destruct (Hn _ _ E) as [-> Hi]. symmetry. apply nth_error_nth'. exact Hi.
  - symmetry. apply nth_error_None. apply nth_error_None in E. lia.
Qed.

Lemma sorted_fst_unique {B} (r1 r2 : list (Z * B)) :
  Permutation r1 r2 -> NoDup (map fst r1) ->
  StronglySorted Z.le (map fst r1) -> StronglySorted Z.le (map fst r2) -> r1 = r2.
Proof.
  revert r2. induction r1 as [|[a v] r1 IH]; intros r2 Hp Hn H1 H2.
  - apply Permutation_nil in Hp. congruence.
  - destruct r2 as [|[b w] r2]; [apply Permutation_sym, Permutation_nil in Hp; discriminate|].
    cbn [map fst] in *. inversion Hn as [|? ? Hni Hn']; subst. inversion H1 as [|? ? S1 F1]; subst. inversion H2 as [|? ? S2 F2]; subst.
    assert (Hab : (a <= b)%Z).
    { assert (Hb : In (b, w) ((a, v) :: r1)) by (eapply Permutation_in; [apply Permutation_sym, Hp|left; auto]).
      destruct Hb as [Hb|Hb]; [injection Hb as -> ->; lia|].
      rewrite Forall_forall in F1. apply F1. apply in_map with (f := fst) in Hb. exact Hb. }
    assert (Hba : (b <= a)%Z).
    { assert (Ha : In (a, v) ((b, w) :: r2)) by (eapply Permutation_in; [apply Hp|left; auto]).
      destruct Ha as [Ha|Ha]; [injection Ha as -> ->; lia|].
      rewrite Forall_forall in F2. apply F2. apply in_map with (f := fst) in Ha. exact Ha. }
    assert (b = a) by lia. subst b.
    assert (Ha : In (a, w) ((a, v) :: r1)) by (eapply Permutation_in; [apply Permutation_sym, Hp|left; auto]).
    destruct Ha as [Ha|Ha]; [|exfalso; apply Hni; apply in_map with (f := fst) in Ha; exact Ha].
    injection Ha as ->. f_equal. apply IH; auto. eapply Permutation_cons_inv; eauto.
Qed.

Lemma sorted_le_lt (l : list Z) : NoDup l -> StronglySorted Z.le l -> StronglySorted Z.lt l.
Proof.
  induction l as [|a l IH]; intros Hn Hs; [constructor|]. inv Hn. inv Hs. constructor; auto.
  rewrite Forall_forall in *. intros b Hb. specialize (H4 b Hb). assert (a <> b) by (intros ->; contradiction). lia.
Qed.

Lemma sorted_Z_unique (l1 l2 : list Z) : Permutation l1 l2 -> StronglySorted Z.le l1 -> StronglySorted Z.le l2 -> l1 = l2.
Proof.
  revert l2. induction l1 as [|a l1 IH]; intros l2 Hp H1 H2.
  - apply Permutation_nil in Hp. congruence.
  - destruct l2 as [|b l2]; [apply Permutation_sym, Permutation_nil in Hp; discriminate|].
    inversion H1 as [|? ? S1 F1]; subst. inversion H2 as [|? ? S2 F2]; subst. rewrite Forall_forall in F1, F2.
    assert (a = b).
    { assert (Hb : In b (a :: l1)) by (eapply Permutation_in; [apply Permutation_sym, Hp|left; auto]).
      assert (Ha : In a (b :: l2)) by (eapply Permutation_in; [apply Hp|left; auto]).
      destruct Hb as [->|Hb]; auto. destruct Ha as [->|Ha]; auto. specialize (F1 _ Hb). specialize (F2 _ Ha). lia. }
    subst b. f_equal. apply IH; auto. eapply Permutation_cons_inv; eauto.
Qed.

(** ** missing *)
Lemma missing_In nodelist nodes l : In l (missing nodelist nodes) <-> In l nodelist /\ ~ In l nodes.
Proof.
  unfold missing. rewrite filter_In. apply and_iff_compat_l.
  destruct (existsb (Z.eqb l) nodes) eqn:E; cbn; split; intros H; try discriminate; auto.
  - exfalso. apply H. apply existsb_exists in E. destruct E as (x & Hx & Ex). apply Z.eqb_eq in Ex. congruence.
  - intros Hin. assert (existsb (Z.eqb l) nodes = true); [|congruence]. apply existsb_exists. exists l. split; auto. apply Z.eqb_refl.
Qed.

Lemma missing_NoDup nodelist nodes : NoDup nodelist -> NoDup (missing nodelist nodes).
Proof. intros. apply NoDup_filter. exact H. Qed.

(** All labels of [ns] plus the rows filled in. *)
Definition filled {A} (labels : list Z) (d : A) (rows : list (Z * A)) : list (Z * A) :=
  rows ++ map (fun n => (n, d)) (missing labels (map fst rows)).

Lemma filled_labels {A} labels (d : A) rows :
  map fst (filled labels d rows) = map fst rows ++ missing labels (map fst rows).
Proof. unfold filled. rewrite map_app, map_map. cbn. rewrite map_id. reflexivity. Qed.

Lemma filled_incl {A} labels (d : A) rows : incl labels (map fst (filled labels d rows)).
Proof.
  intros l Hl. rewrite filled_labels. apply in_app_iff.
  destruct (in_dec Z.eq_dec l (map fst rows)) as [H|H]; [left; auto|right; apply missing_In; auto].
Qed.

Lemma NoDup_app_intro {A} (l1 l2 : list A) : NoDup l1 -> NoDup l2 -> (forall x, In x l1 -> In x l2 -> False) -> NoDup (l1 ++ l2).
Proof.
  induction l1 as [|a l1 IH]; cbn; auto. intros H1 H2 H. inv H1. constructor.
  - rewrite in_app_iff. intros [Hx|Hx]; auto. eapply H; eauto.
  - apply IH; auto. intros x Hx. apply H. auto.
Qed.

Lemma NoDup_app_l {A} (l1 l2 : list A) : NoDup (l1 ++ l2) -> NoDup l1.
Proof.
  induction l1 as [|a l1 IH]; cbn; intros H; [constructor|]. inv H. constructor; auto.
  intros Hx. apply H2. apply in_app_iff. auto.
Qed.

Lemma filled_perm {A B} (ns : list (Z * B)) (d : A) rows : NoDup (map fst ns) -> matches ns rows ->
  Permutation (map fst (filled (map fst ns) d rows)) (map fst ns).
Proof.
  intros Hn [Hm Hi]. rewrite filled_labels. apply NoDup_Permutation; auto.
  - apply NoDup_app_intro; auto; [apply missing_NoDup; auto|]. intros x Hx Hy. apply missing_In in Hy. tauto.
  - intros x. rewrite in_app_iff, missing_In. split; [intros [H|H]; [apply Hi; auto|tauto]|].
    intros H. destruct (in_dec Z.eq_dec x (map fst rows)); tauto.
Qed.

Lemma filled_matches {A B} (ns : list (Z * B)) (d : A) rows : NoDup (map fst ns) ->
  (length (filled (map fst ns) d rows) <= length ns)%nat -> matches ns rows.
Proof.
  intros Hn Hl.
  assert (Hl' : (length (map fst (filled (map fst ns) d rows)) <= length (map fst ns))%nat) by (rewrite !map_length; exact Hl).
  pose proof (NoDup_incl_NoDup Hn Hl' (filled_incl _ _ _)) as H1.
  pose proof (NoDup_length_incl Hn Hl' (filled_incl _ _ _)) as H2.
  rewrite filled_labels in *. split; [eapply NoDup_app_l; eauto|].
  intros x Hx. apply H2. apply in_app_iff. auto.
Qed.

Section Build.
  Context {F : Type} `{NF : Num F}.

  (** ** Adding rows *)
  Lemma add_node_are (h : option (nodeH F)) ns l v : nodes_are h ns -> nodes_are (add_node h l v) (ns ++ [(l, v)]).
  Proof.
    destruct h as [h|]; cbn [nodes_are add_node n_labels n_coords].
    - intros [-> ->]. rewrite !map_app. auto.
    - intros ->. auto.
  Qed.

  Lemma add_nodes_are l : forall (h : option (nodeH F)) ns, nodes_are h ns -> nodes_are (add_nodes h l) (ns ++ l).
  Proof.
    induction l as [|[a v] l IH]; intros h ns H; cbn [add_nodes fold_left]; [rewrite app_nil_r; auto|].
    replace (ns ++ (a, v) :: l) with ((ns ++ [(a, v)]) ++ l) by (rewrite <- app_assoc; auto).
    apply IH. apply add_node_are. exact H.
  Qed.

  Lemma add_bound_are h bs n v h' : bounds_are h bs -> add_bound_U h n v = Ok h' -> bounds_are h' (bs ++ [(n, v)]).
  Proof.
    destruct h as [[bn [l|w rows]]|]; cbn [bounds_are add_bound_U b_nodes b_vals].
    - intros [-> (k & ->)] H. mstep H. injection H as <-. cbn [uv_vstack] in Ha.
      destruct (Nat.eqb_spec (length l) (length v)) as [E|]; [|discriminate]. injection Ha as <-.
      cbn [bounds_are b_nodes b_vals]. split; auto.
    - intros [-> [-> Hw]] H. mstep H. injection H as <-. cbn [uv_vstack] in Ha.
      destruct (Nat.eqb_spec w (length v)) as [E|]; [|discriminate]. injection Ha as <-.
      cbn [bounds_are b_nodes b_vals]. rewrite !map_app. split; auto. split; auto.
      apply Forall_app. split; auto.
    - intros -> H. injection H as <-. cbn. eauto.
  Qed.

  Lemma add_bound_total h bs n v : bounds_are h bs -> h = None \/ bs <> [] ->
    (forall r, In r (map snd bs) -> length r = length v) -> exists h', add_bound_U h n v = Ok h'.
  Proof.
    destruct h as [[bn [l|w rows]]|]; cbn [bounds_are add_bound_U b_nodes b_vals]; intros H He Hl.
    - destruct H as [-> (k & ->)]. cbn [uv_vstack]. rewrite (Hl l) by (left; auto). rewrite Nat.eqb_refl. cbn. eauto.
    - destruct H as [-> [-> Hw]]. destruct He as [He|He]; [discriminate|]. destruct bs as [|[b r] bs]; [congruence|].
      inv Hw. cbn [uv_vstack]. cbn [snd]. rewrite (Hl r) by (left; auto). rewrite Nat.eqb_refl. cbn. eauto.
    - eauto.
  Qed.

  Lemma add_bounds_are l : forall h bs h', bounds_are h bs -> add_bounds_U h l = Ok h' -> bounds_are h' (bs ++ l).
  Proof.
    induction l as [|[a v] l IH]; intros h bs h' H E; cbn [add_bounds_U foldM] in E.
    - injection E as <-. rewrite app_nil_r; auto.
    - mstep E. replace (bs ++ (a, v) :: l) with ((bs ++ [(a, v)]) ++ l) by (rewrite <- app_assoc; auto).
      eapply IH; [|exact E]. eapply add_bound_are; eauto.
  Qed.

  Lemma add_bounds_total l : forall h bs w, bounds_are h bs -> h = None \/ bs <> [] ->
    (forall r, In r (map snd (bs ++ l)) -> length r = w) -> exists h', add_bounds_U h l = Ok h'.
  Proof.
    induction l as [|[a v] l IH]; intros h bs w H He Hl; cbn [add_bounds_U foldM]; [eauto|].
    destruct (add_bound_total h bs a v H He) as [h1 E1].
    { intros r Hr. rewrite (Hl r), (Hl v); auto; rewrite map_app, in_app_iff; cbn; auto. }
    cbn [fst snd]. rewrite E1. cbn [bind]. eapply IH.
    - eapply add_bound_are; eauto.
    - right. destruct bs; discriminate.
    - intros r Hr. apply Hl. rewrite <- app_assoc in Hr. exact Hr.
  Qed.

  Lemma add_force_are (h : option (forceH F)) fs n v h' : forces_are h fs -> add_force h n v = Ok h' ->
    forces_are h' (fs ++ [(n, v)]) /\ (forall h0, h = Some h0 -> exists h1, h' = Some h1 /\ e_width h1 = e_width h0 /\ length v = e_width h0).
  Proof.
    destruct h as [h|]; cbn [forces_are add_force].
    - intros (-> & -> & Hw) H. destruct (Nat.eqb_spec (e_width h) (length v)) as [E|]; [|discriminate].
      injection H as <-. cbn [forces_are e_nodes e_rows e_width]. rewrite !map_app. split.
      + split; auto. split; auto. apply Forall_app. split; auto.
      + intros h0 Hh. injection Hh as <-. eexists. split; [reflexivity|]. auto.
    - intros -> H. injection H as <-. cbn. split; [repeat split; auto|]. intros h0 Hh. discriminate.
  Qed.

  Lemma add_forces_are l : forall (h : option (forceH F)) fs h', forces_are h fs -> add_forces h l = Ok h' -> forces_are h' (fs ++ l).
  Proof.
    induction l as [|[a v] l IH]; intros h fs h' H E; cbn [add_forces foldM] in E.
    - injection E as <-. rewrite app_nil_r; auto.
    - mstep E. replace (fs ++ (a, v) :: l) with ((fs ++ [(a, v)]) ++ l) by (rewrite <- app_assoc; auto).
      eapply IH; [|exact E]. eapply add_force_are; eauto.
  Qed.

  Lemma add_forces_total l : forall (h : option (forceH F)) fs w, forces_are h fs ->
    (forall h0, h = Some h0 -> e_width h0 = w) ->
    (forall r, In r (map snd l) -> length r = w) -> exists h', add_forces h l = Ok h'.
  Proof.
    induction l as [|[a v] l IH]; intros h fs w H He Hl; cbn [add_forces foldM]; [eauto|].
    assert (E1 : exists h1, add_force h a v = Ok h1).
    { destruct h as [h|]; cbn [add_force]; [|eauto]. rewrite (He h eq_refl), (Hl v), Nat.eqb_refl by (left; auto). eauto. }
    destruct E1 as [h1 E1]. cbn [fst snd]. rewrite E1. cbn [bind]. destruct (add_force_are _ _ _ _ _ H E1) as [H1 H2].
    eapply IH; [exact H1| |].
    - intros h0 ->. destruct h as [h|].
      + destruct (H2 h eq_refl) as (h1 & Eh & E2 & _). injection Eh as <-. rewrite E2. apply He. reflexivity.
      + cbn in E1. injection E1 as <-. cbn. apply Hl. left. auto.
    - intros r Hr. apply Hl. right. auto.
  Qed.

  (** ** fix_* *)
  Variable A : list Z -> list nat.
  Hypothesis HA : argsort_ok A.

  Lemma fix_nodes_spec (h : option (nodeH F)) ns : nodes_are h ns -> h <> None ->
    exists ns' h', fix_nodes A h = Ok (Some h') /\ nodes_are (Some h') ns' /\ Permutation ns' ns /\
      StronglySorted Z.le (map fst ns').
  Proof.
    destruct h as [h|]; [|congruence]. cbn [nodes_are]. intros [E1 E2] _.
    destruct (sorted_take A ns HA) as (ns' & G1 & G2 & Hp & Hs).
    exists ns', (NodeH (map fst ns') (map snd ns')). unfold fix_nodes. rewrite E1, E2, G1, G2. cbn. auto.
  Qed.

  Lemma fold_add_bounds miss h :
    foldM (fun h n => add_bound_U h n [1; 1; 1]%Z) miss h = add_bounds_U h (map (fun n => (n, [1; 1; 1]%Z)) miss).
  Proof. unfold add_bounds_U. revert h. induction miss as [|n miss IH]; intros h; cbn; auto. destruct (add_bound_U h n _); cbn; auto. Qed.

  Lemma fix_bounds_spec h labels bs h' : NoDup labels -> (2 <= length labels)%nat ->
    bounds_are h bs -> fix_bounds_U A h labels = Ok h' ->
    exists bs' bh, h' = Some bh /\ bounds_are h' bs' /\ Permutation bs' (filled labels [1; 1; 1]%Z bs) /\
      StronglySorted Z.le (map fst bs') /\ exists w rows, b_vals bh = UMat w rows.
  Proof.
    intros Hn H2 Hb H. unfold fix_bounds_U in H. rewrite fold_add_bounds in H.
    assert (Eh : match h with None => [] | Some h => b_nodes h end = map fst bs).
    { destruct h as [h|]; cbn in Hb; [apply Hb|subst; auto]. }
    rewrite Eh in H. mstep H. apply (add_bounds_are _ _ _ _ Hb) in Ha. fold (filled labels [1; 1; 1]%Z bs) in Ha.
    set (fb := filled labels [1; 1; 1]%Z bs) in *.
    assert (Hl : (2 <= length fb)%nat).
    { pose proof (NoDup_incl_length Hn (filled_incl labels [1; 1; 1]%Z bs)) as Hl. fold fb in Hl. rewrite map_length in Hl. lia. }
    destruct a as [[bn bv]|]; [|discriminate]. cbn [bounds_are b_nodes b_vals] in Ha, H. destruct Ha as [-> Hv].
    destruct bv as [l|w rows]; [destruct Hv as (n & E); rewrite E in Hl; cbn in Hl; lia|]. destruct Hv as [-> Hw].
    destruct (sorted_take A fb HA) as (bs' & G1 & G2 & Hp & Hs). cbn [uv_take] in H. rewrite G1, G2 in H. cbn in H. injection H as <-.
    exists bs', (BoundH (map fst bs') (UMat w (map snd bs'))). split; auto. cbn [bounds_are b_nodes b_vals].
    split; [split; [auto|]; split; auto|].
    - rewrite Forall_forall in *. intros r Hr. apply Hw. eapply Permutation_in; [|exact Hr]. apply Permutation_map. exact Hp.
    - split; auto. split; auto. eauto.
  Qed.

  Lemma fix_bounds_total h labels bs : bounds_are h bs -> h = None \/ bs <> [] -> (2 <= length labels)%nat -> NoDup labels ->
    (forall r, In r (map snd bs) -> length r = 3%nat) -> exists h', fix_bounds_U A h labels = Ok h'.
  Proof.
    intros Hb He H2 Hn Hr. unfold fix_bounds_U. rewrite fold_add_bounds.
    assert (Eh : match h with None => [] | Some h => b_nodes h end = map fst bs).
    { destruct h as [h|]; cbn in Hb; [apply Hb|subst; auto]. }
    rewrite Eh.
    destruct (add_bounds_total (map (fun n => (n, [1; 1; 1]%Z)) (missing labels (map fst bs))) h bs 3 Hb He) as [h1 E1].
    { intros r Hin. rewrite map_app, in_app_iff in Hin. destruct Hin as [Hin|Hin]; [auto|].
      rewrite map_map in Hin. apply in_map_iff in Hin. destruct Hin as (x & <- & _). reflexivity. }
    rewrite E1. cbn [bind]. pose proof (add_bounds_are _ _ _ _ Hb E1) as Hb1. fold (filled labels [1; 1; 1]%Z bs) in Hb1.
    set (fb := filled labels [1; 1; 1]%Z bs) in *.
    assert (Hl : (2 <= length fb)%nat).
    { pose proof (NoDup_incl_length Hn (filled_incl labels [1; 1; 1]%Z bs)) as Hl. fold fb in Hl. rewrite map_length in Hl. lia. }
    destruct h1 as [[bn bv]|]; [|cbn in Hb1; rewrite Hb1 in Hl; cbn in Hl; lia].
    cbn [bounds_are b_nodes b_vals] in Hb1 |- *. destruct Hb1 as [-> Hv].
    destruct bv as [l|w rows]; [destruct Hv as (n & E); rewrite E in Hl; cbn in Hl; lia|]. destruct Hv as [-> Hw].
    destruct (sorted_take A fb HA) as (bs' & G1 & G2 & Hp & Hs). cbn [uv_take]. rewrite G1, G2. cbn. eauto.
  Qed.

  Lemma fold_add_forces w miss (h : option (forceH F)) :
    foldM (fun h n => add_force h n (repeat f0 w)) miss h = add_forces h (map (fun n => (n, repeat f0 w)) miss).
  Proof. unfold add_forces. revert h. induction miss as [|n miss IH]; intros h; cbn; auto. destruct (add_force h n _); cbn; auto. Qed.

  Lemma fix_forces_spec (h : option (forceH F)) labels fs : h <> None -> forces_are h fs ->
    exists h0 fs' fh, h = Some h0 /\ fix_forces A h labels = Ok (Some fh) /\ forces_are (Some fh) fs' /\
      e_width fh = e_width h0 /\
      Permutation fs' (filled labels (repeat f0 (e_width h0)) fs) /\ StronglySorted Z.le (map fst fs').
  Proof.
    destruct h as [h0|]; [|congruence]. intros _ Hf. unfold fix_forces. rewrite fold_add_forces.
    destruct (add_forces_total (map (fun n => (n, repeat f0 (e_width h0))) (missing labels (e_nodes h0))) (Some h0) fs (e_width h0) Hf) as [h1 E1].
    { intros h' E. injection E as <-. reflexivity. }
    { intros r Hr. rewrite map_map in Hr. apply in_map_iff in Hr. destruct Hr as (x & <- & _). apply repeat_length. }
    assert (Hwd : forall l (h' : forceH F) h'', add_forces (Some h') l = Ok h'' -> exists hh, h'' = Some hh /\ e_width hh = e_width h').
    { induction l as [|[a v] l IH]; intros h' h'' E; cbn [add_forces foldM] in E; [injection E as <-; eauto|].
      mstep E. cbn [fst snd add_force] in Ha. destruct (_ =? _); [|discriminate]. injection Ha as <-.
      destruct (IH _ _ E) as (hh & -> & Ew). eauto. }
    destruct (Hwd _ _ _ E1) as (h2 & -> & Ew).
    rewrite E1. cbn [bind]. pose proof (add_forces_are _ _ _ _ Hf E1) as Hf1.
    assert (E0 : e_nodes h0 = map fst fs) by apply Hf. rewrite E0 in Hf1. fold (filled labels (repeat f0 (e_width h0)) fs) in Hf1.
    set (ff := filled labels (repeat f0 (e_width h0)) fs) in *. cbn [forces_are] in Hf1. destruct Hf1 as (N1 & N2 & N3).
    destruct (sorted_take A ff HA) as (fs' & G1 & G2 & Hp & Hs). rewrite N1, N2, G1, G2. cbn [bind].
    exists h0, fs', (ForceH (map fst fs') (e_width h2) (map snd fs')). split; auto. split; auto.
    split; [|split; [exact Ew|]; auto]. cbn. split; auto. split; auto. rewrite N2 in N3. rewrite Forall_forall in *.
    intros r Hr. apply N3. eapply Permutation_in; [|exact Hr]. apply Permutation_map. exact Hp.
  Qed.

  (** ** allclose *)
  Lemma close1_refl z : close1 z z = true.
  Proof. unfold close1. apply Z.leb_le. lia. Qed.

  Lemma allclose_refl l : allclose l l = Ok true.
  Proof.
    unfold allclose. rewrite bcast2_same by reflexivity. cbn. f_equal. induction l as [|a l IH]; auto.
    cbn. rewrite close1_refl. exact IH.
  Qed.

  Lemma allclose_length a b x : (2 <= length a)%nat -> (2 <= length b)%nat -> allclose a b = Ok x -> length a = length b.
  Proof.
    unfold allclose, bcast2. intros H1 H2 H. destruct (Nat.eqb_spec (length a) (length b)); auto.
    exfalso. destruct a as [|a1 [|a2 a]]; cbn in H1; try lia. destruct b as [|b1 [|b2 b]]; cbn in H2; try lia. discriminate.
  Qed.

  Lemma fix_nodes_labels (h nh : nodeH F) : fix_nodes A (Some h) = Ok (Some nh) -> length (n_labels nh) = length (n_labels h).
  Proof.
    cbn [fix_nodes]. intros H. mstep H. mstep H. injection H as <-. cbn. destruct (gather_nth _ _ _ Ha) as [-> _].
    destruct (HA (n_labels h)) as [Hp _]. apply Permutation_length in Hp. rewrite seq_length in Hp. exact Hp.
  Qed.

  (** ** build *)
  Lemma build_inv m m' : build A m = Ok m' ->
    exists nh0 eh nh bh fh D0 D1 an,
      m_nodes m = Some nh0 /\ m_elems m = Some eh /\
      fix_nodes A (Some nh0) = Ok (Some nh) /\
      fix_bounds_U A (m_bounds m) (n_labels nh) = Ok (Some bh) /\
      fix_forces A (m_forces m) (n_labels nh) = Ok (Some fh) /\
      allclose (n_labels nh) (b_nodes bh) = Ok true /\ allclose (n_labels nh) (e_nodes fh) = Ok true /\
      dofs_with 0 (uv_flatten (b_vals bh)) (3 * length (n_labels nh0)) = Ok D0 /\
      dofs_with 1 (uv_flatten (b_vals bh)) (3 * length (n_labels nh0)) = Ok D1 /\
      let nstatev := if existsb (Z.eqb 2) (el_mtype eh) then 2%Z else s_nstatev (m_set m) in
      analysis_build (length (n_labels nh0)) (length (el_labels eh)) D0 D1 nstatev = Ok an /\
      m' = Model (Some nh) (Some eh) (Some bh) (Some fh) (with_nstatev nstatev (m_set m))
             (Some (Built (length (n_labels nh0)) (length D1) an
                [set_lpf f0 (set_fconst (repeat (repeat f0 3) (length (n_labels nh0))) (set_forces (e_rows fh) an))] [])).
  Proof.
    unfold build. destruct (m_nodes m) as [nh0|]; [|discriminate]. destruct (m_elems m) as [eh|]; [|discriminate].
    intros H. mstep H. destruct a as [nh|]; [|discriminate]. mstep H. mstep H.
    destruct a as [bh|]; [|discriminate]. destruct a0 as [fh|]; [|discriminate].
    mstep H. mstep H. destruct a; [|injection Ha3 as <-; discriminate].
    destruct a0; cbn [negb] in H; [|discriminate].
    mstep H. mstep H. mstep H. injection H as <-.
    exists nh0, eh, nh, bh, fh, a, a0, a1. repeat (split; [eassumption || reflexivity|]). cbn zeta. auto.
  Qed.
End Build.
