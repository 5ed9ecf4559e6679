(** * Lemmas for PropCrash.v: interrupted build and run *)
From Coq Require Import List ZArith Bool Arith Lia Permutation Sorting.Sorted.
Import ListNotations.
From Verif Require Import Num Vec ListFacts Handlers Material Analysis Truss Equil Solver Run SpecBuild BuildFacts BuildProps EditFacts Crash CrashFacts SpecCrash CrashProps.

Section CrashBuild.
  Context {F : Type} `{NF : Num F}.
  Notation XM := (xmodel F).
  Notation unit1 := (fun _ => tt).
  Variable A : list Z -> list nat.

  (** ** build reads only what the user defined *)
  Definition upto (s t : XM) : Prop := put_ndof1 None s = put_ndof1 None t.

  Lemma upto_refl s : upto s s.
  Proof. reflexivity. Qed.

  (** Same outcome, states equal up to [ndof1]. *)
  Definition alike {B} (m : act XM B) (s t : XM) : Prop :=
    outcome m s = outcome m t /\ upto (final m s) (final m t).

  (** Same outcome, and the same state if the call returns. *)
  Definition agree {B} (m n : act XM B) (s t : XM) : Prop :=
    outcome m s = outcome n t /\ (forall u, outcome m s = Ok u -> final m s = final n t).

  Lemma agree_bind {B C} (m : act XM B) (f g : B -> act XM C) s t : alike m s t ->
    (forall a s' t', upto s' t' -> agree (f a) (g a) s' t') -> agree (abind m f) (abind m g) s t.
  Proof.
    intros [H1 H2] Hf. unfold agree. rewrite !outcome_bind, !final_bind, <- H1. destruct (outcome m s) as [a| |]; [|split; [reflexivity|discriminate]..].
    destruct (Hf a _ _ H2) as [K1 K2]. auto.
  Qed.
  Lemma agree_get {C} (f g : XM -> act XM C) s t : agree (f s) (g t) s t -> agree (abind get f) (abind get g) s t.
  Proof. intros H. unfold agree. rewrite !outcome_bind, !final_bind. exact H. Qed.
  Lemma agree_upd {C} h h' (f g : unit -> act XM C) s t : agree (f tt) (g tt) (h s) (h' t) -> agree (abind (upd h) f) (abind (upd h') g) s t.
  Proof. intros H. unfold agree. rewrite !outcome_bind, !final_bind. exact H. Qed.
  Lemma agree_ret {B C} (a : B) (f g : B -> act XM C) s t : agree (f a) (g a) s t -> agree (abind (ret a) f) (abind (ret a) g) s t.
  Proof. intros H. unfold agree. rewrite !outcome_bind, !final_bind. exact H. Qed.
  Lemma agree_raise {B C} e (f g : B -> act XM C) s t : agree (abind (raise e) f) (abind (raise e) g) s t.
  Proof. split; [reflexivity|discriminate]. Qed.
  Lemma agree_same {B} (m : act XM B) s : agree m m s s.
  Proof. split; auto. Qed.

  Lemma alike_lift {B} (r : res B) s t : upto s t -> alike (lift r) s t.
  Proof. intros U. split; [reflexivity|exact U]. Qed.
  Lemma alike_need {B} e (o : option B) s t : upto s t -> alike (need e o) s t.
  Proof. intros U. destruct o; (split; [reflexivity|exact U]). Qed.
  Ltac upto_inv U := injection U as -> -> -> -> -> -> -> ->.
  Lemma alike_nodes {B} (m : act (nodeX F) B) s t : upto s t -> alike (in_nodes m) s t.
  Proof.
    destruct s, t. intros U. upto_inv U. unfold alike, in_nodes. rewrite !zoom_outcome, !zoom_final by apply put_nodes_same. split; reflexivity.
  Qed.
  Lemma alike_bounds {B} (m : act boundX B) s t : upto s t -> alike (in_bounds m) s t.
  Proof.
    destruct s, t. intros U. upto_inv U. unfold alike, in_bounds. rewrite !zoom_outcome, !zoom_final by apply put_bounds_same. split; reflexivity.
  Qed.
  Lemma alike_forces {B} (m : act (forceX F) B) s t : upto s t -> alike (in_forces m) s t.
  Proof.
    destruct s, t. intros U. upto_inv U. unfold alike, in_forces. rewrite !zoom_outcome, !zoom_final by apply put_forces_same. split; reflexivity.
  Qed.

  Lemma xbuild_upto s t : same_input s t -> agree (xbuild A) (xbuild A) s t.
  Proof.
    destruct s as [n e b f st nn nd an re], t as [n' e' b' f' st' nn' nd' an' re']. intros (E1 & E2 & E3 & E4 & E5). cbn in E1, E2, E3, E4, E5. subst n' e' b' f' st'.
    unfold xbuild. apply agree_upd. apply agree_upd. apply agree_get.
    cbn [x_nodes put_an put_res x_elems x_bounds x_forces x_set x_nnodes x_ndof1 x_an x_res].
    destruct (xn_labels n) as [ls|]; cbn [need]; [|apply agree_raise]. apply agree_ret. cbn zeta. apply agree_upd.
    destruct e as [eh|]; cbn [need]; [|apply agree_raise]. apply agree_ret. cbn zeta.
    cbn [put_nnodes x_nodes x_elems x_bounds x_forces x_set x_nnodes x_ndof1 x_an x_res].
    match goal with |- agree _ _ ?s ?t => assert (U : upto s t) by reflexivity; revert U; generalize s t end.
    intros s t U.
    apply agree_bind; [apply alike_nodes; exact U|]. clear s t U. intros _ s t U. apply agree_get.
    assert (En : x_nodes t = x_nodes s) by (destruct s, t; upto_inv U; reflexivity). rewrite En.
    apply agree_bind; [apply alike_need; exact U|]. clear s t U En. intros L s t U.
    apply agree_bind; [apply alike_bounds; exact U|]. clear s t U. intros _ s t U.
    apply agree_bind; [apply alike_forces; exact U|]. clear s t U. intros _ s t U. apply agree_get.
    assert (Eb : x_bounds t = x_bounds s) by (destruct s, t; upto_inv U; reflexivity). rewrite Eb.
    assert (Ef : x_forces t = x_forces s) by (destruct s, t; upto_inv U; reflexivity). rewrite Ef.
    assert (Es : x_set t = x_set s) by (destruct s, t; upto_inv U; reflexivity). rewrite Es.
    generalize (x_bounds s) (x_forces s) (x_set s). clear Eb Ef Es b f st. intros b f st.
    apply agree_bind; [apply alike_need; exact U|]. clear s t U. intros bn s t U.
    apply agree_bind; [apply alike_lift; exact U|]. clear s t U. intros c1 s t U.
    apply agree_bind; [apply alike_need; exact U|]. clear s t U. intros fn s t U.
    apply agree_bind; [apply alike_lift; exact U|]. clear s t U. intros c2 s t U.
    destruct (negb c2); [split; [reflexivity|discriminate]|]. cbn zeta.
    apply agree_bind. { split; [reflexivity|]. destruct s, t; upto_inv U; reflexivity. } clear s t U. intros _ s t U.
    apply agree_bind; [apply alike_need; exact U|]. clear s t U. intros bv s t U.
    apply agree_bind; [apply alike_lift; exact U|]. clear s t U. intros D0 s t U.
    apply agree_bind; [apply alike_lift; exact U|]. clear s t U. intros D1 s t U.
    apply agree_upd. replace (put_ndof1 (Some (length D1)) t) with (put_ndof1 (Some (length D1)) s); [apply agree_same|].
    destruct s, t; upto_inv U; reflexivity.
  Qed.

  (** ** The states a build goes through *)
  Definition keeps {B} (P : XM -> Prop) (m : act XM B) : Prop := forall s, P s -> forall t, In t (visits m s) -> P t.
  Lemma keeps_bind {B C} P (m : act XM B) (f : B -> act XM C) : keeps P m -> (forall a, keeps P (f a)) -> keeps P (abind m f).
  Proof.
    intros Hm Hf s Hs t H. apply visits_bind in H. destruct H as [H|(a & _ & H)]; [exact (Hm s Hs t H)|].
    exact (Hf a _ (Hm s Hs _ (visits_final m s)) t H).
  Qed.
  Lemma keeps_lift {B} P (r : res B) : keeps P (lift r).
  Proof. intros s Hs t H. apply visits_lift in H. subst. exact Hs. Qed.
  Lemma keeps_need {B} P e (o : option B) : keeps P (need e o).
  Proof. destruct o; intros s Hs t H; [apply visits_ret in H|apply visits_raise in H]; subst; exact Hs. Qed.
  Lemma keeps_raise {B} P e : keeps P (@raise XM B e).
  Proof. intros s Hs t H. apply visits_raise in H. subst. exact Hs. Qed.
  Lemma keeps_upd (P : XM -> Prop) f : (forall s, P s -> P (f s)) -> keeps P (upd f).
  Proof. intros Hf s Hs t H. apply visits_upd in H. destruct H as [->| ->]; auto. Qed.

  Lemma xbuild_visits (s0 s : XM) L : xn_labels (final (xfix_nodes A) (x_nodes s0)) = Some L ->
    In s (visits (xbuild A) s0) ->
    In (x_nodes s) (visits (xfix_nodes A) (x_nodes s0)) /\
    In (x_bounds s) (visits (xfix_bounds_U A L) (x_bounds s0)) /\
    In (x_forces s) (visits (xfix_forces A L) (x_forces s0)) /\
    x_elems s = x_elems s0 /\
    (x_set s = x_set s0 \/ exists eh, x_elems s0 = Some eh /\
       x_set s = with_nstatev (if existsb (Z.eqb 2) (el_mtype eh) then 2%Z else s_nstatev (x_set s0)) (x_set s0)).
  Proof.
    intros EL.
    set (good := fun s : XM => In (x_nodes s) (visits (xfix_nodes A) (x_nodes s0)) /\
      In (x_bounds s) (visits (xfix_bounds_U A L) (x_bounds s0)) /\ In (x_forces s) (visits (xfix_forces A L) (x_forces s0)) /\
      x_elems s = x_elems s0 /\ (x_set s = x_set s0 \/ exists eh, x_elems s0 = Some eh /\
       x_set s = with_nstatev (if existsb (Z.eqb 2) (el_mtype eh) then 2%Z else s_nstatev (x_set s0)) (x_set s0))).
    assert (G0 : forall s : XM, x_nodes s = x_nodes s0 -> x_bounds s = x_bounds s0 -> x_forces s = x_forces s0 -> x_elems s = x_elems s0 -> x_set s = x_set s0 -> good s).
    { intros t R1 R2 R3 R4 R5. unfold good. rewrite R1, R2, R3, R4, R5. repeat split; auto using visits_self. }
    intros H. change (good s). unfold xbuild in H.
    apply visits_bind in H. destruct H as [H|(? & _ & H)]; [apply visits_upd in H; destruct H as [->| ->]; apply G0; reflexivity|].
    cbn [final upd fst last] in H.
    apply visits_bind in H. destruct H as [H|(? & _ & H)]; [apply visits_upd in H; destruct H as [->| ->]; apply G0; reflexivity|].
    cbn [final upd fst last] in H.
    apply visits_bind in H. destruct H as [H|(s1 & E & H)]; [apply visits_get in H; subst s; apply G0; reflexivity|].
    cbn in E. injection E as <-. cbn [final get fst last] in H. cbn [x_nodes x_elems put_an put_res] in H.
    destruct (xn_labels (x_nodes s0)) as [ls|]; cbn [need] in H.
    2: { apply visits_bind in H. destruct H as [H|(? & E & _)]; [apply visits_raise in H; subst s; apply G0; reflexivity|discriminate]. }
    apply visits_bind in H. destruct H as [H|(? & E & H)]; [apply visits_ret in H; subst s; apply G0; reflexivity|]. cbn in E. injection E as <-. cbn [final ret fst last] in H.
    cbn zeta in H. apply visits_bind in H. destruct H as [H|(? & _ & H)]; [apply visits_upd in H; destruct H as [->| ->]; apply G0; reflexivity|].
    cbn [final upd fst last] in H.
    destruct (x_elems s0) as [eh|] eqn:Ee; cbn [need] in H.
    2: { apply visits_bind in H. destruct H as [H|(? & E & _)]; [apply visits_raise in H; subst s; apply G0; cbn; auto|discriminate]. }
    apply visits_bind in H. destruct H as [H|(? & E & H)]; [apply visits_ret in H; subst s; apply G0; cbn; auto|]. cbn in E. injection E as <-. cbn [final ret fst last] in H.
    cbn zeta in H. set (t0 := put_nnodes _ _) in H.
    assert (T0 : x_nodes t0 = x_nodes s0 /\ x_bounds t0 = x_bounds s0 /\ x_forces t0 = x_forces s0 /\ x_elems t0 = Some eh /\ x_set t0 = x_set s0) by (repeat split; auto).
    clearbody t0. destruct T0 as (T1 & T2 & T3 & T4 & T5).
    (* nodes *)
    apply visits_bind in H. destruct H as [H|(? & E & H)].
    { apply zoom_visits in H; [|apply put_nodes_same]. destruct H as (u & Hu & ->). rewrite T1 in Hu. unfold good. cbn [put_nodes x_nodes x_bounds x_forces x_elems x_set].
      rewrite T2, T3, T4, T5. repeat split; auto using visits_self. }
    unfold in_nodes in H. rewrite zoom_final in H by apply put_nodes_same. rewrite T1 in H. set (t1 := put_nodes _ _) in H.
    assert (N1 : x_nodes t1 = final (xfix_nodes A) (x_nodes s0)) by reflexivity.
    assert (N2 : x_bounds t1 = x_bounds s0) by (cbn; auto). assert (N3 : x_forces t1 = x_forces s0) by (cbn; auto).
    assert (N4 : x_elems t1 = Some eh) by (cbn; auto). assert (N5 : x_set t1 = x_set s0) by (cbn; auto). clearbody t1. clear E t0 T1 T2 T3 T4 T5.
    assert (G1 : good t1). { unfold good. rewrite N1, N2, N3, N4, N5. repeat split; auto using visits_self, visits_final. }
    apply visits_bind in H. destruct H as [H|(s1 & E & H)]; [apply visits_get in H; subst s; exact G1|].
    cbn in E. injection E as <-. cbn [final get fst last] in H. rewrite N1, EL in H. cbn [need] in H.
    apply visits_bind in H. destruct H as [H|(? & E & H)]; [apply visits_ret in H; subst s; exact G1|]. cbn in E. injection E as <-. cbn [final ret fst last] in H.
    (* supports *)
    apply visits_bind in H. destruct H as [H|(? & E & H)].
    { apply zoom_visits in H; [|apply put_bounds_same]. destruct H as (u & Hu & ->). rewrite N2 in Hu. unfold good. cbn [put_bounds x_nodes x_bounds x_forces x_elems x_set].
      rewrite N1, N3, N4, N5. repeat split; auto using visits_self, visits_final. }
    unfold in_bounds in H. rewrite zoom_final in H by apply put_bounds_same. rewrite N2 in H. set (t2 := put_bounds _ _) in H.
    assert (M1 : x_nodes t2 = final (xfix_nodes A) (x_nodes s0)) by (cbn; auto).
    assert (M2 : x_bounds t2 = final (xfix_bounds_U A L) (x_bounds s0)) by reflexivity. assert (M3 : x_forces t2 = x_forces s0) by (cbn; auto).
    assert (M4 : x_elems t2 = Some eh) by (cbn; auto). assert (M5 : x_set t2 = x_set s0) by (cbn; auto). clearbody t2. clear E t1 N1 N2 N3 N4 N5 G1.
    (* loads *)
    apply visits_bind in H. destruct H as [H|(? & E & H)].
    { apply zoom_visits in H; [|apply put_forces_same]. destruct H as (u & Hu & ->). rewrite M3 in Hu. unfold good. cbn [put_forces x_nodes x_bounds x_forces x_elems x_set].
      rewrite M1, M2, M4, M5. repeat split; auto using visits_self, visits_final. }
    unfold in_forces in H. rewrite zoom_final in H by apply put_forces_same. rewrite M3 in H. set (t3 := put_forces _ _) in H.
    assert (K1 : x_nodes t3 = final (xfix_nodes A) (x_nodes s0)) by (cbn; auto).
    assert (K2 : x_bounds t3 = final (xfix_bounds_U A L) (x_bounds s0)) by (cbn; auto). assert (K3 : x_forces t3 = final (xfix_forces A L) (x_forces s0)) by reflexivity.
    assert (K4 : x_elems t3 = Some eh) by (cbn; auto). assert (K5 : x_set t3 = x_set s0) by (cbn; auto). clearbody t3. clear E t2 M1 M2 M3 M4 M5.
    set (done := fun s : XM => x_nodes s = x_nodes t3 /\ x_bounds s = x_bounds t3 /\ x_forces s = x_forces t3 /\ x_elems s = x_elems t3 /\
                 (x_set s = x_set s0 \/ x_set s = with_nstatev (if existsb (Z.eqb 2) (el_mtype eh) then 2%Z else s_nstatev (x_set s0)) (x_set s0))).
    assert (GD : forall s, done s -> good s).
    { intros t (D1 & D2 & D3 & D4 & D5). unfold good. rewrite D1, D2, D3, D4, K1, K2, K3, K4. repeat split; auto using visits_final.
      destruct D5 as [D5|D5]; [left; auto|right; eauto]. }
    apply GD. assert (D0 : done t3) by (repeat split; auto).
    apply visits_bind in H. destruct H as [H|(t & E & H)]; [apply visits_get in H; subst s; exact D0|].
    cbn in E. injection E as <-. cbn [final get fst last] in H. revert H. revert D0.
    match goal with |- _ -> In _ (visits ?k _) -> _ => enough (K : keeps done k) by (intros D0 H; exact (K _ D0 _ H)) end.
    repeat first [apply keeps_bind; [|intros ?]|apply keeps_need|apply keeps_lift|apply keeps_raise
      |match goal with |- keeps _ (if ?c then _ else _) => destruct c end].
    all: apply keeps_upd; intros t (D1 & D2 & D3 & D4 & D5).
    1: unfold done; cbn [put_set x_nodes x_bounds x_forces x_elems x_set]; rewrite K5; repeat split; auto.
    all: unfold done; repeat split; auto.
  Qed.

  (** ** The states each table goes through *)
  Lemma each_visits {S B} (f : B -> act S unit) l : forall s t, In t (visits (each f l) s) ->
    t = s \/ exists l1 a l2, l = l1 ++ a :: l2 /\ outcome (each f l1) s = Ok tt /\ In t (visits (f a) (final (each f l1) s)).
  Proof.
    induction l as [|a l IH]; intros s t H; cbn [each] in H; [apply visits_ret in H; auto|].
    apply visits_bind in H. destruct H as [H|([] & Ho & H)].
    - right. exists [], a, l. split; auto.
    - right. destruct (IH _ _ H) as [->|(l1 & b & l2 & -> & E & Ht)].
      + exists [], a, l. split; auto. split; [reflexivity|]. apply visits_final.
      + exists (a :: l1), b, l2. split; auto. cbn [each]. rewrite outcome_bind, final_bind, Ho. auto.
  Qed.

  Lemma missing_rest L H l1 l2 : NoDup L -> missing L H = l1 ++ l2 -> missing L (H ++ l1) = l2.
  Proof.
    intros Hn E.
    assert (E2 : missing L (H ++ l1) = filter (fun n => negb (existsb (Z.eqb n) l1)) (missing L H)).
    { clear E Hn. unfold missing. induction L as [|x L IH]; cbn; auto. rewrite existsb_app. destruct (existsb (Z.eqb x) H); cbn; auto.
      destruct (existsb (Z.eqb x) l1); cbn; rewrite IH; auto. }
    rewrite E2, E, filter_app. pose proof (missing_NoDup L H Hn) as Hd. rewrite E in Hd. clear E E2 Hn.
    assert (E1 : filter (fun n => negb (existsb (Z.eqb n) l1)) l1 = []).
    { apply missing_none with (labels := l1). apply incl_refl. }
    rewrite E1. cbn. apply filter_all. intros x Hx. destruct (existsb (Z.eqb x) l1) eqn:Ex; auto. exfalso.
    apply existsb_exists in Ex. destruct Ex as (y & Hy & Exy). apply Z.eqb_eq in Exy. subst y.
    clear E1. induction l1 as [|a l1 IH]; cbn in *; [contradiction|]. inversion Hd; subst. destruct Hy as [->|Hy]; auto. apply H2. apply in_app_iff. auto.
  Qed.

  (** Nodes. *)
  Lemma nodes_visits (h : nodeH F) h' t : fix_nodes A (Some h) = Ok (Some h') -> In t (visits (xfix_nodes A) (x_node (Some h))) ->
    t = x_node (Some h) \/ t = NodeX (Some (n_labels h')) (Some (n_coords h)) \/ t = x_node (Some h').
  Proof.
    destruct h as [ls cs]. unfold fix_nodes. cbn [n_labels n_coords]. intros E H. mstep E. mstep E. injection E as <-. cbn [n_labels n_coords].
    unfold xfix_nodes, visits, abind, get, lift, upd in H. cbn in H. rewrite Ha in H. cbn in H. rewrite Ha0 in H. cbn in H.
    destruct H as [<-|[<-|[<-|[]]]]; auto.
  Qed.

  (** Supports. *)
  Definition b_labels (h : option boundH) : list Z := match h with None => [] | Some h => b_nodes h end.
  Lemma add_bound_labels h n v h' : add_bound_U h n v = Ok h' -> b_labels h' = b_labels h ++ [n].
  Proof. destruct h as [h|]; cbn; intros E; [mstep E|]; injection E as <-; reflexivity. Qed.
  Lemma fold_bound_labels l : forall h h', foldM (fun h n => add_bound_U h n [1; 1; 1]%Z) l h = Ok h' -> b_labels h' = b_labels h ++ l.
  Proof.
    induction l as [|n l IH]; intros h h' E; cbn [foldM] in E; [injection E as <-; symmetry; apply app_nil_r|].
    mstep E. rewrite (IH _ _ E), (add_bound_labels _ _ _ _ Ha), <- app_assoc. reflexivity.
  Qed.
  Definition b_ok (h : option boundH) : Prop :=
    match h with None => True
    | Some h => match b_vals h with UFlat _ => length (b_nodes h) = 1 | UMat _ rows => length rows = length (b_nodes h) end end.
  Lemma b_ok_are h bs : bounds_are h bs -> b_ok h.
  Proof.
    destruct h as [[ns [l|w rows]]|]; cbn; auto; intros [E1 E2]; subst ns; [destruct E2 as (n & ->); reflexivity|].
    destruct E2 as [-> _]. rewrite !map_length. reflexivity.
  Qed.
  Lemma add_bound_stops h n v t : b_ok h -> In t (visits (xadd_bound_U n v) (x_bound h)) ->
    t = x_bound h \/ (exists h', add_bound_U h n v = Ok h' /\ t = x_bound h') \/
    (torn_b t /\ xb_nodes t = Some (b_labels h ++ [n]) /\ forall l, xb_vals t = Some (UFlat l) -> length (b_labels h ++ [n]) = 2).
  Proof.
    destruct h as [[ns vs]|]; cbn; intros H2 Hu.
    - unfold abind, lift, upd in Hu. cbn in Hu.
      assert (T : torn_b (set_bn (ns ++ [n]) (BoundX (Some ns) (Some vs)))) by (unfold torn_b; cbn; rewrite app_length; cbn; destruct vs; lia).
      destruct (uv_vstack vs v) as [vs'| |]; cbn in Hu; (destruct Hu as [<-|[<-|Hu]]; [left; reflexivity|right; right; split; [exact T|]; split; [reflexivity|]; cbn; intros l E; injection E as ->; rewrite app_length; cbn; lia|]); try contradiction.
      destruct Hu as [<-|[]]. right; left. eexists. split; reflexivity.
    - destruct Hu as [<-|[<-|[<-|[]]]]; [left; reflexivity| |right; left; eexists; split; reflexivity].
      right; right. split; [unfold torn_b; cbn; auto|]. split; [reflexivity|discriminate].
  Qed.
  Lemma add_bound_ok h n v h' : b_ok h -> add_bound_U h n v = Ok h' -> b_ok h'.
  Proof.
    destruct h as [[ns vs]|]; cbn; intros H E; [mstep E|]; injection E as <-; [|reflexivity]. cbn. unfold uv_vstack in Ha.
    destruct vs; destruct (_ =? _); try discriminate; injection Ha as <-; cbn; rewrite ?app_length; cbn; lia.
  Qed.
  Lemma fold_bound_ok l : forall h h', b_ok h -> foldM (fun h n => add_bound_U h n [1; 1; 1]%Z) l h = Ok h' -> b_ok h'.
  Proof.
    induction l as [|n l IH]; intros h h' H E; cbn [foldM] in E; [injection E as <-; auto|]. mstep E. eapply IH; [|exact E]. eapply add_bound_ok; eauto.
  Qed.

  (** Stopping after some of the default rows: fixing again gives the same table. *)
  Lemma bounds_again h L l1 l2 h1 : NoDup L -> missing L (b_labels h) = l1 ++ l2 ->
    foldM (fun h n => add_bound_U h n [1; 1; 1]%Z) l1 h = Ok h1 -> fix_bounds_U A h1 L = fix_bounds_U A h L.
  Proof.
    intros Hn Em E1. unfold fix_bounds_U. fold (b_labels h) (b_labels h1).
    rewrite (fold_bound_labels _ _ _ E1), (missing_rest L _ l1 l2 Hn Em), Em, foldM_app, E1. reflexivity.
  Qed.

  Lemma bounds_visits h L h' t : NoDup L -> b_ok h -> fix_bounds_U A h L = Ok h' -> In t (visits (xfix_bounds_U A L) (x_bound h)) ->
    (exists h1, t = x_bound h1 /\ fix_bounds_U A h1 L = fix_bounds_U A h L) \/
    (torn_b t /\ exists l1 a l2, missing L (b_labels h) = l1 ++ a :: l2 /\ xb_nodes t = Some (b_labels h ++ l1 ++ [a]) /\
       forall l, xb_vals t = Some (UFlat l) -> length (b_labels h ++ l1 ++ [a]) = 2) \/
    (exists h1 hf bh, foldM (fun h n => add_bound_U h n [1; 1; 1]%Z) (missing L (b_labels h)) h = Ok (Some h1) /\
       h' = Some hf /\ bh = b_vals h1 /\ t = BoundX (Some (b_nodes hf)) (Some bh)) \/
    t = x_bound h'.
  Proof.
    intros Hn Hok Hf Hi. unfold xfix_bounds_U in Hi. apply visits_bind in Hi. destruct Hi as [Hi|(x & E & Hi)].
    { apply visits_get in Hi. left. exists h. auto. }
    cbn in E. injection E as <-. cbn [final get fst last] in Hi.
    replace (match xb_nodes (x_bound h) with None => [] | Some ns => ns end) with (b_labels h) in Hi by (destruct h; reflexivity).
    cbn zeta in Hi.
    assert (EF : forall l h0, follows x_bound unit1 (foldM (fun h n => add_bound_U h n [1; 1; 1]%Z) l h0) (each (fun n => xadd_bound_U n [1; 1; 1]%Z) l) (x_bound h0)).
    { intros l h0. apply (each_follows x_bound (fun h n => add_bound_U h n [1; 1; 1]%Z)). intros. apply xadd_bound_follows. }
    apply visits_bind in Hi. destruct Hi as [Hi|([] & Eo & Hi)].
    - apply each_visits in Hi. destruct Hi as [->|(l1 & a & l2 & El & Eo & Hi)]; [left; exists h; auto|].
      specialize (EF l1 h). unfold follows in EF. destruct (foldM (fun h n => add_bound_U h n [1; 1; 1]%Z) l1 h) as [h1| |] eqn:E1; [|exfalso; rewrite EF in Eo; discriminate..].
      destruct EF as [EF _]. rewrite EF in Hi.
      destruct (add_bound_stops h1 a [1; 1; 1]%Z t (fold_bound_ok _ _ _ Hok E1) Hi) as [->|[(h2 & E2 & ->)|(T1 & T2 & T3)]].
      + left. exists h1. split; auto. eapply bounds_again; eauto.
      + left. exists h2. split; auto. apply (bounds_again h L (l1 ++ [a]) l2); auto; [rewrite <- app_assoc; exact El|]. rewrite foldM_app, E1. cbn. rewrite E2. reflexivity.
      + right; left. split; auto. exists l1, a, l2. split; auto. rewrite (fold_bound_labels _ _ _ E1), <- app_assoc in T2, T3. auto.
    - unfold fix_bounds_U in Hf. fold (b_labels h) in Hf. specialize (EF (missing L (b_labels h)) h). unfold follows in EF.
      destruct (foldM (fun h n => add_bound_U h n [1; 1; 1]%Z) (missing L (b_labels h)) h) as [h1| |] eqn:E1; [|discriminate..].
      destruct EF as [EF _]. rewrite EF in Hi. cbn [bind] in Hf. destruct h1 as [h1|]; [|discriminate]. mstep Hf. mstep Hf. injection Hf as <-.
      unfold visits, abind, get, lift, upd in Hi. cbn in Hi. rewrite Ha in Hi. cbn in Hi. rewrite Ha0 in Hi. cbn in Hi.
      destruct Hi as [<-|[<-|[<-|[]]]].
      + left. exists (Some h1). split; auto. eapply bounds_again; [auto| |exact E1]. symmetry. apply app_nil_r.
      + right; right; left. exists h1, (BoundH a a0), (b_vals h1). auto.
      + right; right; right. reflexivity.
  Qed.

  (** Loads. *)
  Definition f_labels (h : option (forceH F)) : list Z := match h with None => [] | Some h => e_nodes h end.
  Definition f_ok (h : option (forceH F)) : Prop := match h with None => True | Some h => length (e_rows h) = length (e_nodes h) end.
  Lemma f_ok_are h fs : forces_are h fs -> f_ok h.
  Proof. destruct h as [h|]; cbn; auto. intros (E1 & E2 & _). rewrite E1, E2, !map_length. reflexivity. Qed.
  Lemma add_force_facts h0 n (v : list F) h' : f_ok (Some h0) -> add_force (Some h0) n v = Ok h' ->
    exists h1, h' = Some h1 /\ f_ok h' /\ e_width h1 = e_width h0 /\ e_nodes h1 = e_nodes h0 ++ [n].
  Proof.
    cbn. destruct (_ =? _); [|discriminate]. intros H E. injection E as <-. eexists. split; [reflexivity|]. cbn. rewrite !app_length, H. auto.
  Qed.
  Lemma fold_force_facts w l : forall h0 h', f_ok (Some h0) -> foldM (fun h n => add_force h n (repeat f0 w)) l (Some h0) = Ok h' ->
    exists h1, h' = Some h1 /\ f_ok h' /\ e_width h1 = e_width h0 /\ e_nodes h1 = e_nodes h0 ++ l.
  Proof.
    induction l as [|n l IH]; intros h0 h' H E; cbn [foldM] in E; [injection E as <-; exists h0; rewrite app_nil_r; auto|].
    apply bind_ok in E. destruct E as (a & Ha & E).
    destruct (add_force_facts _ _ _ _ H Ha) as (h1 & -> & K1 & K2 & K3). destruct (IH _ _ K1 E) as (h2 & -> & J1 & J2 & J3).
    exists h2. rewrite J2, J3, K2, K3, <- app_assoc. auto.
  Qed.
  Lemma add_force_stops h0 n v t : f_ok (Some h0) -> In t (visits (xadd_force n v) (x_force (Some h0))) ->
    t = x_force (Some h0) \/ (exists h', add_force (Some h0) n v = Ok h' /\ t = x_force h') \/ torn_f t.
  Proof.
    destruct h0 as [ns w rows]. cbn. intros H3 Hu. unfold abind, upd in Hu. cbn in Hu.
    destruct (w =? length v) eqn:Ew; cbn in Hu; (destruct Hu as [<-|[<-|Hu]]; [left; reflexivity| |]).
    - right; right. unfold torn_f. cbn. rewrite app_length. cbn. lia.
    - destruct Hu as [<-|[]]. right; left. eexists. split; reflexivity.
    - right; right. unfold torn_f. cbn. rewrite app_length. cbn. lia.
    - contradiction.
  Qed.
  Lemma forces_again h0 L l1 l2 h1 : f_ok (Some h0) -> NoDup L -> missing L (e_nodes h0) = l1 ++ l2 ->
    foldM (fun h n => add_force h n (repeat f0 (e_width h0))) l1 (Some h0) = Ok h1 -> fix_forces A h1 L = fix_forces A (Some h0) L.
  Proof.
    intros Hok Hn Em E1. destruct (fold_force_facts _ _ _ _ Hok E1) as (h2 & -> & _ & Ew & El). unfold fix_forces.
    rewrite Ew, El, (missing_rest L _ l1 l2 Hn Em), Em, foldM_app, E1. reflexivity.
  Qed.
  Lemma forces_visits h0 L h' t : NoDup L -> f_ok (Some h0) -> fix_forces A (Some h0) L = Ok h' -> In t (visits (xfix_forces A L) (x_force (Some h0))) ->
    (exists h1, t = x_force h1 /\ fix_forces A h1 L = fix_forces A (Some h0) L) \/
    (torn_f t /\ missing L (e_nodes h0) <> []) \/
    (exists h1 hf, foldM (fun h n => add_force h n (repeat f0 (e_width h0))) (missing L (e_nodes h0)) (Some h0) = Ok (Some h1) /\
       h' = Some hf /\ t = ForceX (Some (e_nodes hf)) (Some (e_width h1, e_rows h1))) \/
    t = x_force h'.
  Proof.
    intros Hn Hok Hf Hi. unfold xfix_forces in Hi. apply visits_bind in Hi. destruct Hi as [Hi|(x & E & Hi)].
    { apply visits_get in Hi. left. exists (Some h0). auto. }
    cbn in E. injection E as <-. cbn [final get fst last] in Hi. cbn [x_force xf_rows xf_nodes] in Hi. cbn zeta in Hi.
    set (w := e_width h0) in *.
    assert (EF : forall l h, follows x_force unit1 (foldM (fun h n => add_force h n (repeat f0 w)) l h) (each (fun n => xadd_force n (repeat f0 w)) l) (x_force h)).
    { intros l h. apply (each_follows x_force (fun h n => add_force h n (repeat f0 w))). intros. apply xadd_force_follows. }
    change (ForceX (Some (e_nodes h0)) (Some (w, e_rows h0))) with (x_force (Some h0)) in Hi.
    apply visits_bind in Hi. destruct Hi as [Hi|([] & Eo & Hi)].
    - apply each_visits in Hi. destruct Hi as [->|(l1 & a & l2 & El & Eo & Hi)]; [left; exists (Some h0); auto|].
      specialize (EF l1 (Some h0)). unfold follows in EF.
      destruct (foldM (fun h n => add_force h n (repeat f0 w)) l1 (Some h0)) as [h1| |] eqn:E1; [|exfalso; rewrite EF in Eo; discriminate..].
      destruct EF as [EF _]. rewrite EF in Hi. destruct (fold_force_facts _ _ _ _ Hok E1) as (h2 & -> & K1 & K2 & K3).
      destruct (add_force_stops h2 a (repeat f0 w) t K1 Hi) as [->|[(h3 & E2 & ->)|T]]; [| |right; left; split; [exact T|rewrite El; destruct l1; discriminate]].
      + left. exists (Some h2). split; auto. eapply forces_again; eauto.
      + left. exists h3. split; auto. apply (forces_again h0 L (l1 ++ [a]) l2); auto; [rewrite <- app_assoc; exact El|].
        fold w. rewrite foldM_app, E1. cbn [bind foldM]. rewrite E2. reflexivity.
    - unfold fix_forces in Hf. fold w in Hf. specialize (EF (missing L (e_nodes h0)) (Some h0)). unfold follows in EF.
      destruct (foldM (fun h n => add_force h n (repeat f0 w)) (missing L (e_nodes h0)) (Some h0)) as [h1| |] eqn:E1; [|discriminate..].
      destruct EF as [EF _]. rewrite EF in Hi. cbn [bind] in Hf. destruct (fold_force_facts _ _ _ _ Hok E1) as (h2 & -> & K1 & K2 & K3).
      apply bind_ok in Hf. destruct Hf as (ls & G1 & Hf). apply bind_ok in Hf. destruct Hf as (rs & G2 & Hf). injection Hf as <-.
      unfold visits, abind, get, lift, upd in Hi. cbn in Hi. rewrite G1 in Hi. cbn in Hi. rewrite G2 in Hi. cbn in Hi.
      destruct Hi as [<-|[<-|[<-|[]]]].
      + left. exists (Some h2). split; auto. eapply forces_again; [auto|auto| |exact E1]. symmetry. apply app_nil_r.
      + right; right; left. exists h2. eexists. split; [reflexivity|]. split; reflexivity.
      + right; right; right. reflexivity.
  Qed.

  (** ** [build] always ends *)
  Definition nt {S B} (m : act S B) : Prop := forall s, outcome m s <> Timeout.
  Lemma nt_bind {S B C} (m : act S B) (f : B -> act S C) : nt m -> (forall a, nt (f a)) -> nt (abind m f).
  Proof. intros Hm Hf s. rewrite outcome_bind. specialize (Hm s). destruct (outcome m s); [apply Hf|discriminate|congruence]. Qed.
  Lemma nt_lift {S B} (r : res B) : r <> Timeout -> nt (@lift S B r).
  Proof. intros H s. exact H. Qed.
  Lemma nt_upd {S} (f : S -> S) : nt (upd f).
  Proof. intros s. discriminate. Qed.
  Lemma nt_get {S} : nt (@get S).
  Proof. intros s. discriminate. Qed.
  Lemma nt_raise {S B} e : nt (@raise S B e).
  Proof. intros s. discriminate. Qed.
  Lemma nt_need {B} e (o : option B) : nt (need (F := F) e o).
  Proof. destruct o; intros s; discriminate. Qed.
  Lemma nt_zoom {S T B} (g : S -> T) p (m : act T B) : nt m -> nt (zoom g p m).
  Proof. intros H s. specialize (H (g s)). unfold outcome, zoom in *. destruct (m (g s)); exact H. Qed.
  Lemma nt_each {S B} (f : B -> act S unit) l : (forall a, nt (f a)) -> nt (each f l).
  Proof. intros H. induction l as [|a l IH]; cbn [each]; [intros s; discriminate|]. apply nt_bind; auto. Qed.
  Lemma uv_take_nt u ix : uv_take u ix <> Timeout.
  Proof. destruct u as [l|w rows]; cbn; [pose proof (gather_nt l ix)|pose proof (gather_nt rows ix)]; destruct (gather _ ix); cbn; congruence. Qed.
  Lemma uv_vstack_nt u v : uv_vstack u v <> Timeout.
  Proof. destruct u; cbn; destruct (_ =? _); discriminate. Qed.
  Lemma allclose_nt a b : allclose a b <> Timeout.
  Proof.
    unfold allclose, bcast2. repeat match goal with |- context [match ?x with _ => _ end] => destruct x; cbn [bind]; try discriminate end.
  Qed.
  Lemma analysis_build_nt n e D0 D1 k : analysis_build (F := F) n e D0 D1 k <> Timeout.
  Proof. unfold analysis_build. pose proof (gather_nt (vflat (zeros3 (F := F) n)) D1). destruct (gather _ D1); cbn; congruence. Qed.
  Ltac nts := repeat first [apply nt_bind; [|intros ?]|apply nt_upd|apply nt_get|apply nt_raise|apply nt_need|apply nt_each; intros ?
    |apply nt_lift; first [apply gather_nt|apply uv_take_nt|apply uv_vstack_nt|apply allclose_nt|apply analysis_build_nt]
    |match goal with |- nt (match ?x with _ => _ end) => destruct x end].
  Lemma xbuild_nt : nt (xbuild (F := F) A).
  Proof.
    unfold xbuild. nts.
    all: try (apply nt_zoom; unfold xfix_nodes, xfix_bounds_U, xfix_forces, xadd_bound_U, xadd_force; nts).
    apply nt_lift. destruct (_ : bool); [apply allclose_nt|discriminate].
  Qed.

  (** ** Building again from a state in between *)
  Lemma with_nstatev_id (st : settings F) : with_nstatev (s_nstatev st) st = st.
  Proof. destruct st. reflexivity. Qed.
  Lemma with_nstatev_twice a b (st : settings F) : with_nstatev a (with_nstatev b st) = with_nstatev a st.
  Proof. destruct st. reflexivity. Qed.

  Hypothesis HA : argsort_ok A.

  Lemma build_from (m m1 : model F) n b f st u nh0 nh :
    build A m = Ok m1 -> m_nodes m = Some nh0 -> fix_nodes A (Some nh0) = Ok (Some nh) ->
    fix_nodes A (Some n) = Ok (Some nh) ->
    fix_bounds_U A b (n_labels nh) = fix_bounds_U A (m_bounds m) (n_labels nh) ->
    fix_forces A f (n_labels nh) = fix_forces A (m_forces m) (n_labels nh) ->
    (st = m_set m \/ exists eh, m_elems m = Some eh /\ st = with_nstatev (if existsb (Z.eqb 2) (el_mtype eh) then 2%Z else s_nstatev (m_set m)) (m_set m)) ->
    build A (Model (Some n) (m_elems m) b f st u) = Ok m1.
  Proof.
    intros H En Ef Efn Eb Eo Es.
    destruct (build_inv A m m1 H) as (nh0' & eh & nh' & bh & fh & D0 & D1 & an & X1 & X2 & X3 & X4 & X5 & X6 & X7 & X8 & X9 & X10 & X11).
    rewrite En in X1. injection X1 as <-. rewrite Ef in X3. injection X3 as <-. cbn zeta in X10, X11.
    assert (Hl : length (n_labels n) = length (n_labels nh0)) by (rewrite <- (fix_nodes_labels A HA nh0 nh Ef), <- (fix_nodes_labels A HA n nh Efn); reflexivity).
    unfold build. cbn [m_nodes m_elems m_bounds m_forces m_set]. rewrite X2, Efn. cbn [bind]. rewrite Eb, X4. cbn [bind]. rewrite Eo, X5. cbn [bind].
    rewrite X6, X7. cbn [bind negb]. rewrite Hl, X8. cbn [bind]. rewrite X9. cbn [bind].
    subst m1. destruct Es as [->|(eh' & Ee & ->)].
    - rewrite X10. reflexivity.
    - rewrite X2 in Ee. injection Ee as <-. cbn [s_nstatev with_nstatev]. rewrite with_nstatev_twice.
      destruct (existsb (Z.eqb 2) (el_mtype eh)); rewrite X10; reflexivity.
  Qed.

  (** A table of rows with a label order, all of whose rows are known, is known. *)
  Lemma rows_known {B} (rows rows' : list (Z * B)) d L : NoDup (map fst rows) -> map fst rows' = L ->
    (forall p, In p rows' -> In p rows \/ (~ In (fst p) (map fst rows) /\ snd p = d)) -> rows' = rows_for rows d L.
  Proof.
    intros Hn <- H. unfold rows_for. rewrite map_map. rewrite <- (map_id rows') at 1. apply map_ext_in. intros [l v] Hp. cbn.
    f_equal. destruct (H _ Hp) as [Hi|[Hi E]]; cbn in *; [symmetry; apply row_for_In; auto|subst; symmetry; apply row_for_notin; auto].
  Qed.

  Section Points.
    Variables (m m1 : model F) (ns : list (Z * v3 F)) (bs : list (Z * list Z)) (fs : list (Z * list F)).
    Hypothesis Hns : nodes_are (m_nodes m) ns.
    Hypothesis Hbs : bounds_are (m_bounds m) bs.
    Hypothesis Hfs : forces_are (m_forces m) fs.
    Hypothesis Hn : NoDup (map fst ns).
    Hypothesis H2 : 2 <= length ns.
    Hypothesis Hb : build A m = Ok m1.

    (** The three tables: as good as untouched, torn, or half sorted. *)
    Lemma build_points s : In s (visits (xbuild A) (x_of m)) ->
      exists nh0 nh ns', m_nodes m = Some nh0 /\ fix_nodes A (Some nh0) = Ok (Some nh) /\ m_nodes m1 = Some nh /\
        nodes_are (Some nh) ns' /\ Permutation ns' ns /\ StronglySorted Z.lt (map fst ns') /\
      ((exists n, x_nodes s = x_node (Some n) /\ fix_nodes A (Some n) = Ok (Some nh)) \/
       x_nodes s = NodeX (Some (n_labels nh)) (Some (map snd ns))) /\
      ((exists b, x_bounds s = x_bound b /\ fix_bounds_U A b (n_labels nh) = fix_bounds_U A (m_bounds m) (n_labels nh)) \/
       (torn_b (x_bounds s) /\ exists l1 a l2, missing (n_labels nh) (map fst bs) = l1 ++ a :: l2 /\ xb_nodes (x_bounds s) = Some (map fst bs ++ l1 ++ [a]) /\
          forall l, xb_vals (x_bounds s) = Some (UFlat l) -> length (map fst bs ++ l1 ++ [a]) = 2) \/
       (exists bh w, m_bounds m1 = Some bh /\ Forall (fun r => length r = w) (map snd bs ++ repeat [1; 1; 1]%Z (length ns - length bs)) /\ x_bounds s = BoundX (Some (b_nodes bh)) (Some (UMat w (map snd bs ++ repeat [1; 1; 1]%Z (length ns - length bs)))))) /\
      ((exists f, x_forces s = x_force f /\ fix_forces A f (n_labels nh) = fix_forces A (m_forces m) (n_labels nh)) \/
       (torn_f (x_forces s) /\ missing (n_labels nh) (map fst fs) <> []) \/
       (exists fh w, m_forces m1 = Some fh /\ e_width fh = w /\ x_forces s = ForceX (Some (e_nodes fh)) (Some (w, map snd fs ++ repeat (repeat f0 w) (length ns - length fs))))) /\
      x_elems s = m_elems m /\
      (x_set s = m_set m \/ exists eh, m_elems m = Some eh /\ x_set s = with_nstatev (if existsb (Z.eqb 2) (el_mtype eh) then 2%Z else s_nstatev (m_set m)) (m_set m)).
    Proof.
      intros Hi. destruct (build_tables A m m1 ns bs fs HA Hns Hbs Hfs Hn H2 Hb) as (Mb & Mf & ns' & w & T1 & T2 & T3 & T4 & T5 & T5b & T5c & T6 & T7).
      destruct (build_inv A m m1 Hb) as (nh0 & eh & nh & bh & fh & D0 & D1 & an & X1 & X2 & X3 & X4 & X5 & X6 & X7 & X8 & X9 & X10 & X11). cbn zeta in X11.
      assert (Y1 : m_nodes m1 = Some nh) by (rewrite X11; reflexivity). assert (Y2 : m_bounds m1 = Some bh) by (rewrite X11; reflexivity).
      assert (Y3 : m_forces m1 = Some fh) by (rewrite X11; reflexivity). clear X11 X10 X6 X7 X8 X9.
      rewrite Y1 in T1. rewrite Y2 in T4. rewrite Y3 in T6.
      assert (EL : xn_labels (final (xfix_nodes A) (x_nodes (x_of m))) = Some (n_labels nh)).
      { pose proof (xfix_nodes_follows A nh0) as K. unfold follows in K. rewrite X3 in K. destruct K as [K _]. unfold x_of. cbn [x_nodes]. rewrite X1, K. reflexivity. }
      destruct (xbuild_visits _ _ _ EL Hi) as (V1 & V2 & V3 & V4 & V5). unfold x_of in V1, V2, V3, V4, V5. cbn [x_nodes x_bounds x_forces x_elems x_set] in V1, V2, V3, V4, V5.
      rewrite X1 in V1, Hns.
      assert (Hl : n_labels nh = map fst ns') by apply T1.
      assert (HnL : NoDup (n_labels nh)) by (rewrite Hl; apply sorted_lt_NoDup; exact T3).
      assert (Hms : forall B (rows : list (Z * B)), matches ns rows -> length (missing (n_labels nh) (map fst rows)) = length ns - length rows).
      { intros B rows Hm. assert (Hm' : matches ns' rows).
        { destruct Hm as [J1 J2]. split; auto. intros x Hx. eapply Permutation_in; [apply Permutation_map, Permutation_sym, T2|]. auto. }
        assert (Hd : NoDup (map fst ns')) by (rewrite <- Hl; exact HnL).
        destruct rows as [|[l0 d] rows0] eqn:Er.
        - cbn. rewrite Hl. unfold missing. rewrite filter_all by auto. rewrite map_length, (Permutation_length T2). lia.
        - rewrite <- Er in *. pose proof (Permutation_length (filled_perm ns' d rows Hd Hm')) as K.
          rewrite filled_labels, app_length, !map_length, (Permutation_length T2), <- Hl in K. lia. }
      exists nh0, nh, ns'. split; [exact X1|]. split; [exact X3|]. split; [exact Y1|]. split; [exact T1|]. split; [exact T2|]. split; [exact T3|].
      split; [|split; [|split; [|split; [exact V4|exact V5]]]].
      - destruct (nodes_visits nh0 nh _ X3 V1) as [E|[E|E]].
        + left. exists nh0. auto.
        + right. rewrite E. destruct Hns as [_ ->]. reflexivity.
        + left. exists nh. split; auto. destruct nh as [ls cs]. cbn in T1 |- *. destruct T1 as [-> ->].
          destruct (sorted_take_same A ns' HA T3) as [-> ->]. reflexivity.
      - assert (Eh : b_labels (m_bounds m) = map fst bs) by (destruct (m_bounds m) as [h|]; cbn in Hbs |- *; [apply Hbs|subst; auto]).
        destruct (bounds_visits _ _ _ _ HnL (b_ok_are _ _ Hbs) X4 V2) as [K|[K|[(h1 & hf & bv & K1 & K2 & K3 & K4)|K]]].
        + left. exact K.
        + right; left. rewrite <- Eh. exact K.
        + right; right. injection K2 as <-. rewrite Eh, fold_add_bounds in K1. pose proof (add_bounds_are _ _ _ _ Hbs K1) as J.
          destruct h1 as [n1 v1]. cbn [bounds_are b_nodes b_vals] in J, K3. subst bv. destruct J as [_ J].
          assert (Hlen : length (bs ++ map (fun n => (n, [1; 1; 1]%Z)) (missing (n_labels nh) (map fst bs))) = length ns).
          { rewrite app_length, map_length, (Hms _ _ Mb). enough (length bs <= length ns) by lia.
            destruct Mb as [J1 J2]. pose proof (NoDup_incl_length J1 J2) as K. rewrite !map_length in K. exact K. }
          destruct v1 as [l|w1 rows]; [destruct J as (n & J); rewrite J in Hlen; cbn in Hlen; lia|]. destruct J as [-> Jw].
          assert (Er : map snd (bs ++ map (fun n => (n, [1; 1; 1]%Z)) (missing (n_labels nh) (map fst bs))) = map snd bs ++ repeat [1; 1; 1]%Z (length ns - length bs)).
          { rewrite map_app, map_map, <- (Hms _ _ Mb). f_equal. cbn. clear. induction (missing (n_labels nh) (map fst bs)); cbn; f_equal; auto. }
          rewrite Er in Jw, K4. exists bh, w1. auto.
        + left. exists (Some bh). split; auto. rewrite X4. destruct T4 as [B1 B2]. unfold fix_bounds_U. rewrite B1, Hl, rows_for_fst, missing_none by apply incl_refl. cbn [foldM bind].
          rewrite B1. set (bs' := rows_for bs [1; 1; 1]%Z (map fst ns')) in *. assert (Hsb : StronglySorted Z.lt (map fst bs')) by (unfold bs'; rewrite rows_for_fst; exact T3).
          destruct (sorted_take_same A bs' HA Hsb) as [G1 G2]. rewrite G1. cbn [bind]. destruct bh as [bn [l|w' rows]]; cbn in B1, B2 |- *.
          * exfalso. destruct B2 as (n & E). assert (Hlb : length bs' = length ns) by (unfold bs', rows_for; rewrite !map_length; apply Permutation_length; auto).
            rewrite E in Hlb. cbn in Hlb. lia.
          * destruct B2 as [-> _]. rewrite G2. cbn. subst bn. reflexivity.
      - destruct (m_forces m) as [h0|] eqn:Em0; [|discriminate].
        destruct (forces_visits _ _ _ _ HnL (f_ok_are _ _ Hfs) X5 V3) as [K|[K|[(h1 & hf & K1 & K2 & K4)|K]]].
        + left. exact K.
        + right; left. assert (E0 : e_nodes h0 = map fst fs) by apply Hfs. rewrite <- E0. exact K.
        + right; right. injection K2 as <-. assert (E0 : e_nodes h0 = map fst fs) by apply Hfs.
          destruct (fold_force_facts _ _ _ _ (f_ok_are _ _ Hfs) K1) as (h1' & E1 & _ & Ew & _). injection E1 as <-.
          rewrite E0, fold_add_forces in K1. pose proof (add_forces_are _ _ _ _ Hfs K1) as (_ & J & _).
          exists fh, (e_width h1). split; auto. split; [rewrite Ew, (T5b _ eq_refl); apply T5c; exact Y3|]. rewrite K4, J. do 3 f_equal. rewrite map_app, map_map, <- (Hms _ _ Mf), Ew. f_equal. cbn. clear.
          induction (missing (n_labels nh) (map fst fs)); cbn; f_equal; auto.
        + left. exists (Some fh). split; auto. rewrite X5. destruct T6 as (B1 & B2 & _). unfold fix_forces. rewrite B1, Hl, rows_for_fst, missing_none by apply incl_refl. cbn [foldM bind].
          rewrite B1, B2. set (fs' := rows_for fs (repeat f0 w) (map fst ns')) in *. assert (Hsb : StronglySorted Z.lt (map fst fs')) by (unfold fs'; rewrite rows_for_fst; exact T3).
          destruct (sorted_take_same A fs' HA Hsb) as [-> ->]. cbn [bind]. destruct fh; cbn in *. subst. reflexivity.
    Qed.

    (** What is left of the analysis of the state: enough to resume. *)
    Lemma clean_resumes s nh0 nh n b f : In s (visits (xbuild A) (x_of m)) ->
      m_nodes m = Some nh0 -> fix_nodes A (Some nh0) = Ok (Some nh) ->
      x_nodes s = x_node (Some n) -> fix_nodes A (Some n) = Ok (Some nh) ->
      x_bounds s = x_bound b -> fix_bounds_U A b (n_labels nh) = fix_bounds_U A (m_bounds m) (n_labels nh) ->
      x_forces s = x_force f -> fix_forces A f (n_labels nh) = fix_forces A (m_forces m) (n_labels nh) ->
      x_elems s = m_elems m ->
      (x_set s = m_set m \/ exists eh, m_elems m = Some eh /\ x_set s = with_nstatev (if existsb (Z.eqb 2) (el_mtype eh) then 2%Z else s_nstatev (m_set m)) (m_set m)) ->
      outcome (xbuild A) s = Ok tt /\ final (xbuild A) s = x_of m1.
    Proof.
      intros _ En Ef E1 E2 E3 E4 E5 E6 E7 E8. set (m' := Model (Some n) (m_elems m) b f (x_set s) None).
      assert (Eb : build A m' = Ok m1) by (eapply build_from; eauto).
      pose proof (xbuild_follows A m') as K. unfold follows in K. rewrite Eb in K. destruct K as [K1 K2].
      assert (Si : same_input s (x_of m')) by (unfold same_input, m', x_of; cbn [x_nodes x_elems x_bounds x_forces x_set m_nodes m_elems m_bounds m_forces m_set]; auto).
      destruct (xbuild_upto _ _ Si) as [J1 J2]. rewrite K2 in J1. split; [exact J1|]. rewrite (J2 tt J1). exact K1.
    Qed.

    Lemma b_ok_untorn b : b_ok b -> ~ torn_b (x_bound b).
    Proof. destruct b as [[l [v|w rows]]|]; unfold torn_b; cbn; intros; lia. Qed.
    Lemma f_ok_untorn f : f_ok f -> ~ torn_f (x_force f).
    Proof. destruct f as [[l w rows]|]; unfold torn_f; cbn; intros; lia. Qed.

    Lemma resume s : In s (visits (xbuild A) (x_of m)) -> intact ns bs fs s ->
      outcome (xbuild A) s = Ok tt /\ final (xbuild A) s = x_of m1.
    Proof.
      intros Hi (I1 & I2 & I3).
      destruct (build_points s Hi) as (nh0 & nh & ns' & En & Ef & Em1 & Hnn & Hp & Hs & C1 & C2 & C3 & C4 & C5).
      destruct (build_tables A m m1 ns bs fs HA Hns Hbs Hfs Hn H2 Hb) as (Mb & Mf & ns1 & w & T1 & T2 & T3 & T4 & T5 & T5b & T5c & T6 & T7).
      assert (ns1 = ns').
      { rewrite Em1 in T1. destruct T1 as [K1 K2], Hnn as [J1 J2]. rewrite J1 in K1. rewrite J2 in K2. clear - K1 K2. revert ns1 K1 K2.
        induction ns' as [|[a v] l IH]; intros [|[a' v'] l'] K1 K2; try discriminate; auto. cbn in *. injection K1 as -> K1. injection K2 as -> K2. f_equal. apply IH; auto. }
      subst ns1. clear T1 T2 T3.
      assert (Hl : n_labels nh = map fst ns') by apply Hnn.
      assert (HnL : NoDup (map fst ns')) by (apply sorted_lt_NoDup; exact Hs).
      assert (Hlen : length ns' = length ns) by (apply Permutation_length; exact Hp).
      assert (D1 : exists n, x_nodes s = x_node (Some n) /\ fix_nodes A (Some n) = Ok (Some nh)).
      { destruct C1 as [C1|C1]; [exact C1|]. exists nh. destruct I1 as (ns2 & E2 & Hin). rewrite C1 in E2. injection E2 as E2 E3. rewrite Hl in E2.
        assert (Hd2 : NoDup (map fst ns2)) by (rewrite <- E2; exact HnL).
        assert (Hp2 : Permutation ns2 ns).
        { apply NoDup_Permutation_bis; auto; [apply NoDup_map_inv in Hd2; exact Hd2|]. rewrite <- Hlen, <- (map_length fst ns'), E2, map_length. auto. }
        assert (ns2 = ns').
        { apply sorted_fst_unique; auto; [|rewrite <- E2; apply sorted_lt_le; exact Hs|apply sorted_lt_le; exact Hs].
          eapply Permutation_trans; [exact Hp2|apply Permutation_sym; exact Hp]. }
        subst ns2. destruct nh as [ls cs]. cbn in Hnn, Hl, C1 |- *. destruct Hnn as [-> ->]. rewrite C1, E3. split; [reflexivity|].
        destruct (sorted_take_same A ns' HA Hs) as [-> ->]. reflexivity. }
      assert (D2 : exists b, x_bounds s = x_bound b /\ fix_bounds_U A b (n_labels nh) = fix_bounds_U A (m_bounds m) (n_labels nh)).
      { destruct I2 as (h & bs2 & E2 & Hb2 & Hin). destruct C2 as [C2|[[C2 _]|(bh & w1 & Eb1 & _ & C2)]]; [exact C2| |].
        { exfalso. rewrite E2 in C2. exact (b_ok_untorn h (b_ok_are _ _ Hb2) C2). }
        rewrite Eb1 in T4. rewrite E2 in C2. destruct h as [[bn bv]|]; [|discriminate]. cbn in C2. injection C2 as -> ->.
        assert (Ebn : b_nodes bh = map fst ns') by (destruct T4 as [K _]; rewrite K; apply rows_for_fst).
        assert (Er : bs2 = rows_for bs [1; 1; 1]%Z (map fst ns')).
        { apply rows_known; [apply Mb| |exact Hin]. destruct Hb2 as [K _]. cbn in K. congruence. }
        rewrite Er in Hb2. assert (Eh : BoundH (b_nodes bh) (UMat w1 (map snd bs ++ repeat [1; 1; 1]%Z (length ns - length bs))) = bh).
        { eapply uvals_eq; [exact Hb2|exact T4|]. unfold rows_for. rewrite !map_length. lia. }
        exists (Some bh). split; [rewrite E2, Eh; reflexivity|]. clear Eh E2 Hb2 Hin Er.
        destruct (build_inv A m m1 Hb) as (nh0' & eh & nh' & bh' & fh & D0 & D1' & an & X1 & X2 & X3 & X4 & X5 & X6 & X7 & X8 & X9 & X10 & X11). cbn zeta in X11.
        assert (bh' = bh) by (rewrite X11 in Eb1; cbn in Eb1; congruence). assert (nh' = nh) by (rewrite X11 in Em1; cbn in Em1; congruence). subst bh' nh'.
        rewrite X4. destruct T4 as [B1 B2]. unfold fix_bounds_U. rewrite B1, Hl, rows_for_fst, missing_none by apply incl_refl. cbn [foldM bind].
        rewrite B1. set (bs' := rows_for bs [1; 1; 1]%Z (map fst ns')) in *. assert (Hsb : StronglySorted Z.lt (map fst bs')) by (unfold bs'; rewrite rows_for_fst; exact Hs).
        destruct (sorted_take_same A bs' HA Hsb) as [G1 G2]. rewrite G1. cbn [bind]. destruct bh as [bn [l|w' rows]]; cbn in B1, B2 |- *.
        - exfalso. destruct B2 as (n & E). assert (Hlb : length bs' = length ns) by (unfold bs', rows_for; rewrite !map_length; auto).
          rewrite E in Hlb. cbn in Hlb. lia.
        - destruct B2 as [-> _]. rewrite G2. cbn. subst bn. reflexivity. }
      assert (D3 : exists f, x_forces s = x_force f /\ fix_forces A f (n_labels nh) = fix_forces A (m_forces m) (n_labels nh)).
      { destruct I3 as (h & fs2 & E2 & Hf2 & Hin). destruct C3 as [C3|[[C3 _]|(fh & w1 & Eb1 & Ew1 & C3)]]; [exact C3| |].
        { exfalso. rewrite E2 in C3. exact (f_ok_untorn h (f_ok_are _ _ Hf2) C3). }
        pose proof (T5c _ Eb1) as Ew. rewrite Eb1 in T6. rewrite E2 in C3. destruct h as [[en ew er]|]; [|discriminate]. cbn in C3. injection C3 as -> -> Eer.
        assert (Efn : e_nodes fh = map fst ns') by (destruct T6 as [K _]; rewrite K; apply rows_for_fst).
        destruct Hf2 as (K1 & K2 & K3). cbn [e_nodes e_rows e_width] in K1, K2, K3.
        assert (Er : fs2 = rows_for fs (repeat f0 w) (map fst ns')).
        { apply rows_known; [apply Mf|congruence|]. intros p Hpp. destruct (Hin p Hpp) as [J|[J1 J2]]; [auto|right; split; auto].
          assert (Jl : length (snd p) = w).
          { rewrite Forall_forall in K3. rewrite <- Ew, Ew1. apply K3. rewrite K2. apply in_map. exact Hpp. }
          clear - J2 Jl. rewrite <- Jl. clear Jl. induction J2 as [|x l -> _ IH]; cbn; f_equal; auto. }
        exists (Some fh). destruct T6 as (B1 & B2 & _). split.
        { rewrite E2. cbn. rewrite K2, Er, <- B2, Ew1. reflexivity. }
        destruct (build_inv A m m1 Hb) as (nh0' & eh & nh' & bh' & fh' & D0 & D1' & an & X1 & X2 & X3 & X4 & X5 & X6 & X7 & X8 & X9 & X10 & X11). cbn zeta in X11.
        assert (fh' = fh) by (rewrite X11 in Eb1; cbn in Eb1; congruence). assert (nh' = nh) by (rewrite X11 in Em1; cbn in Em1; congruence). subst fh' nh'.
        rewrite X5. unfold fix_forces. rewrite B1, Hl, rows_for_fst, missing_none by apply incl_refl. cbn [foldM bind].
        rewrite B1, B2. set (fs' := rows_for fs (repeat f0 w) (map fst ns')) in *. assert (Hsb : StronglySorted Z.lt (map fst fs')) by (unfold fs'; rewrite rows_for_fst; exact Hs).
        destruct (sorted_take_same A fs' HA Hsb) as [-> ->]. cbn [bind]. clear - B1 B2. destruct fh; cbn in *. subst. reflexivity. }
      destruct D1 as (n & N1 & N2), D2 as (b & B1 & B2), D3 as (f & F1 & F2).
      eapply clean_resumes; eauto.
    Qed.

    Lemma points s : 3 <= length ns -> In s (visits (xbuild A) (x_of m)) ->
      (outcome (xbuild A) s = Ok tt /\ final (xbuild A) s = x_of m1) \/
      (label_left s /\ exists e, outcome (xbuild A) s = Err e) \/
      half_sorted ns bs fs m1 s.
    Proof.
      intros H3 Hi.
      destruct (build_points s Hi) as (nh0 & nh & ns' & En & Ef & Em1 & Hnn & Hp & Hs & C1 & C2 & C3 & C4 & C5).
      assert (Hl : n_labels nh = map fst ns') by apply Hnn.
      assert (Hlab : exists ls, xn_labels (x_nodes s) = Some ls /\ Permutation ls (map fst ns')).
      { destruct C1 as [(n & E & Efn)|E]; rewrite E; cbn.
        - exists (n_labels n). split; auto. unfold fix_nodes in Efn. mstep Efn. mstep Efn. injection Efn as <-. cbn in Hl. subst a.
          apply Permutation_sym. eapply gather_perm; [apply (HA (n_labels n))|exact Ha].
        - exists (n_labels nh). rewrite Hl. auto. }
      assert (Raises : (forall u, outcome (xbuild A) s <> Ok u) -> exists e, outcome (xbuild A) s = Err e).
      { intros K. pose proof (xbuild_nt s) as Nt. destruct (outcome (xbuild A) s) as [u|e|]; [destruct (K u); auto|eauto|congruence]. }
      destruct C2 as [(b & B1 & B2)|[(T & l1 & a & l2 & _ & El & Efl)|(bh & w1 & Eb1 & _ & C2)]].
      2: { right; left. split; [right; left; exact T|]. apply Raises. intros [] Ho. apply xbuild_ok_inv in Ho. destruct Ho as (O1 & L & O2 & O3 & _).
           destruct (fix_nodes_perm A _ _ HA O1 O2) as (ls & E1 & P1). destruct Hlab as (ls' & E1' & P2). rewrite E1 in E1'. injection E1' as <-.
           eapply torn_b_fix; [exact HA|exact T| |exact O3]. destruct (xb_vals (x_bounds s)) as [[l|w rows]|] eqn:Ev; [|left; eauto|right; left; auto].
           right; right. specialize (Efl l eq_refl).
           destruct (missing L (map fst bs ++ l1 ++ [a])) as [|x r] eqn:Ex.
           + exfalso. assert (Hinc : incl L (map fst bs ++ l1 ++ [a])).
             { intros y Hy. destruct (in_dec Z.eq_dec y (map fst bs ++ l1 ++ [a])); auto. exfalso.
               assert (In y (missing L (map fst bs ++ l1 ++ [a]))) by (apply missing_In; auto). rewrite Ex in H. exact H. }
             assert (Hd : NoDup L).
             { eapply Permutation_NoDup; [apply Permutation_sym; exact P1|]. eapply Permutation_NoDup; [apply Permutation_sym; exact P2|]. apply sorted_lt_NoDup; exact Hs. }
             pose proof (NoDup_incl_length Hd Hinc). rewrite (Permutation_length P1), (Permutation_length P2), map_length, (Permutation_length Hp) in H. lia.
           + exists x. assert (Hx : In x (missing L (map fst bs ++ l1 ++ [a]))) by (rewrite Ex; left; auto). apply missing_In in Hx.
             split; [apply Hx|]. intros k Ek. rewrite El in Ek. injection Ek as <-. apply Hx. }
      2: { right; right. right; left. eauto. }
      destruct C3 as [(f & F1 & F2)|[[T _]|(fh & w1 & Eb1 & _ & C3)]].
      2: { right; left. split; [right; right; exact T|]. apply Raises. intros [] Ho. apply xbuild_ok_inv in Ho. destruct Ho as (O1 & L & O2 & _ & O3).
           eapply torn_f_fix; [exact HA|exact T|exact O3]. }
      2: { right; right. right; right. eauto. }
      destruct C1 as [(n & N1 & N2)|C1]; [|right; right; left; eauto].
      left. eapply clean_resumes; eauto.
    Qed.

    (** The tables of the built model are fixed points. *)
    Lemma built_tables : exists nh bh fh ns' w, m_nodes m1 = Some nh /\ m_bounds m1 = Some bh /\ m_forces m1 = Some fh /\
      nodes_are (Some nh) ns' /\ Permutation ns' ns /\ StronglySorted Z.lt (map fst ns') /\
      bounds_are (Some bh) (rows_for bs [1; 1; 1]%Z (map fst ns')) /\ forces_are (Some fh) (rows_for fs (repeat f0 w) (map fst ns')) /\ e_width fh = w /\
      fix_nodes A (Some nh) = Ok (Some nh) /\ fix_bounds_U A (Some bh) (n_labels nh) = fix_bounds_U A (m_bounds m) (n_labels nh) /\
      fix_forces A (Some fh) (n_labels nh) = fix_forces A (m_forces m) (n_labels nh).
    Proof.
      destruct (build_tables A m m1 ns bs fs HA Hns Hbs Hfs Hn H2 Hb) as (Mb & Mf & ns' & w & T1 & T2 & T3 & T4 & T5 & T5b & T5c & T6 & T7).
      pose proof (build_again A m m1 ns bs fs None HA Hns Hbs Hfs Hn H2 Hb) as Hag.
      destruct (build_inv A m m1 Hb) as (nh0 & eh & nh & bh & fh & D0 & D1 & an & X1 & X2 & X3 & X4 & X5 & X6 & X7 & X8 & X9 & X10 & X11). cbn zeta in X11.
      assert (Y1 : m_nodes m1 = Some nh) by (rewrite X11; reflexivity). assert (Y2 : m_bounds m1 = Some bh) by (rewrite X11; reflexivity).
      assert (Y3 : m_forces m1 = Some fh) by (rewrite X11; reflexivity). clear X11 X10 X6 X7 X8 X9.
      destruct (build_inv A _ m1 Hag) as (nh0' & eh' & nh' & bh' & fh' & D0' & D1' & an' & Z1 & Z2 & Z3 & Z4 & Z5 & _ & _ & _ & _ & _ & Z11).
      assert (E1 : nh' = nh) by (rewrite Z11 in Y1; injection Y1 as ->; reflexivity). assert (E2 : bh' = bh) by (rewrite Z11 in Y2; injection Y2 as ->; reflexivity).
      assert (E3 : fh' = fh) by (rewrite Z11 in Y3; injection Y3 as ->; reflexivity). subst nh' bh' fh'. clear Z11.
      cbn [with_built m_nodes m_bounds m_forces] in Z1, Z4, Z5. rewrite Y1 in Z1, T1. injection Z1 as <-. rewrite Y2 in Z4, T4. rewrite Y3 in Z5, T6.
      exists nh, bh, fh, ns', w. rewrite X4, X5. repeat (split; [eassumption || (apply T5c; eassumption)|]). assumption.
    Qed.

    (** Tables given completely and in the order of the labels. *)
    Lemma sorted_resumes s : StronglySorted Z.lt (map fst ns) -> map fst bs = map fst ns -> map fst fs = map fst ns ->
      In s (visits (xbuild A) (x_of m)) -> outcome (xbuild A) s = Ok tt /\ final (xbuild A) s = x_of m1.
    Proof.
      intros Ss Lb Lf Hi.
      destruct (build_points s Hi) as (nh0 & nh & ns1 & En & Ef & Em1 & Hnn & Hp & Hs & C1 & C2 & C3 & C4 & C5).
      destruct built_tables as (nh' & bh & fh & ns' & w & Y1 & Y2 & Y3 & T1 & T2 & T3 & T4 & T6 & Tw & G1 & G2 & G3).
      assert (nh' = nh) by congruence. subst nh'. clear ns1 Hnn Hp Hs.
      assert (ns' = ns).
      { apply sorted_fst_unique; auto; [apply sorted_lt_NoDup; exact T3|apply sorted_lt_le; exact T3|apply sorted_lt_le; exact Ss]. }
      subst ns'. assert (Hl : n_labels nh = map fst ns) by apply T1.
      assert (Kb : rows_for bs [1; 1; 1]%Z (map fst ns) = bs).
      { symmetry. apply rows_known; auto; rewrite ?Lb; auto. }
      assert (Kf : rows_for fs (repeat f0 w) (map fst ns) = fs).
      { symmetry. apply rows_known; auto; rewrite ?Lf; auto. }
      rewrite Kb in T4. rewrite Kf in T6.
      assert (Lb' : length bs = length ns) by (rewrite <- (map_length fst bs), Lb, map_length; auto).
      assert (Lf' : length fs = length ns) by (rewrite <- (map_length fst fs), Lf, map_length; auto).
      assert (D1 : exists n, x_nodes s = x_node (Some n) /\ fix_nodes A (Some n) = Ok (Some nh)).
      { destruct C1 as [C1|C1]; [exact C1|]. exists nh. split; auto. rewrite C1. destruct T1 as [_ T1]. rewrite <- T1. reflexivity. }
      assert (D2 : exists b, x_bounds s = x_bound b /\ fix_bounds_U A b (n_labels nh) = fix_bounds_U A (m_bounds m) (n_labels nh)).
      { destruct C2 as [C2|[(_ & l1 & a & l2 & C2 & _)|(bh' & w1 & Eb1 & Ew1 & C2)]]; [exact C2| |].
        - exfalso. rewrite Hl, Lb, missing_none in C2 by apply incl_refl. destruct l1; discriminate.
        - assert (bh' = bh) by congruence. subst bh'. rewrite Lb', Nat.sub_diag, app_nil_r in C2, Ew1. exists (Some bh). split; auto. rewrite C2.
          assert (Eh : BoundH (b_nodes bh) (UMat w1 (map snd bs)) = bh).
          { eapply uvals_eq; [|exact T4|lia]. cbn. destruct T4 as [T4 _]. auto. }
          rewrite <- Eh at 2. reflexivity. }
      assert (D3 : exists f, x_forces s = x_force f /\ fix_forces A f (n_labels nh) = fix_forces A (m_forces m) (n_labels nh)).
      { destruct C3 as [C3|[(_ & C3)|(fh' & w1 & Eb1 & Ew1 & C3)]]; [exact C3| |].
        - exfalso. rewrite Hl, Lf, missing_none in C3 by apply incl_refl. auto.
        - assert (fh' = fh) by congruence. subst fh'. rewrite Lf', Nat.sub_diag, app_nil_r in C3. exists (Some fh). split; auto. rewrite C3.
          destruct T6 as (_ & T6 & _). cbn. rewrite <- Ew1, T6. reflexivity. }
      destruct D1 as (n & N1 & N2), D2 as (b & B1 & B2), D3 as (f & F1 & F2).
      eapply clean_resumes; eauto.
    Qed.
  End Points.

  (** A model that has been built. *)
  Lemma rebuild (m m1 : model F) ns bs fs u s :
    nodes_are (m_nodes m) ns -> bounds_are (m_bounds m) bs -> forces_are (m_forces m) fs ->
    NoDup (map fst ns) -> 2 <= length ns -> build A m = Ok m1 ->
    In s (visits (xbuild A) (x_of (with_built m1 u))) -> outcome (xbuild A) s = Ok tt /\ final (xbuild A) s = x_of m1.
  Proof.
    intros Hns Hbs Hfs Hn H2 Hb Hi.
    destruct (built_tables m m1 ns bs fs Hns Hbs Hfs Hn H2 Hb) as (nh & bh & fh & ns' & w & Y1 & Y2 & Y3 & T1 & T2 & T3 & T4 & T6 & _).
    eapply (sorted_resumes (with_built m1 u) m1 ns' (rows_for bs [1; 1; 1]%Z (map fst ns')) (rows_for fs (repeat f0 w) (map fst ns'))); auto;
      cbn [with_built m_nodes m_bounds m_forces]; rewrite ?Y1, ?Y2, ?Y3, ?rows_for_fst; auto.
    - apply sorted_lt_NoDup. exact T3.
    - rewrite (Permutation_length T2). exact H2.
    - eapply build_again; eauto.
  Qed.
End CrashBuild.
