(** * Lemmas about Crash.v: composition, and agreement with Handlers.v and Run.v *)
From Coq Require Import List ZArith Bool Arith Lia Permutation Sorting.Sorted.
Import ListNotations.
From Verif Require Import Num Vec ListFacts Handlers Material Analysis Truss Equil Solver Run SpecBuild BuildFacts BuildProps EditFacts Crash.

Local Arguments del_rows : simpl never.
Local Arguments positions : simpl never.
Local Arguments delete_at : simpl never.
Local Arguments gather : simpl never.
Local Arguments uv_take : simpl never.
Local Arguments uv_delete : simpl never.
Local Arguments uv_vstack : simpl never.
Local Arguments tab_vstack : simpl never.

(** ** Composition *)
Lemma last_app {A} (l l' : list A) d : last (l ++ l') d = last l' (last l d).
Proof.
  destruct l' as [|x l'] using rev_ind; [rewrite app_nil_r; reflexivity|].
  rewrite app_assoc, !last_last. reflexivity.
Qed.
Lemma last_map {A B} (f : A -> B) l d : last (map f l) (f d) = f (last l d).
Proof. induction l as [|a l IH]; cbn; auto. destruct l; cbn; auto. Qed.
Lemma In_last {A} (l : list A) d : In (last l d) (d :: l).
Proof.
  destruct l as [|x l] using rev_ind; [left; reflexivity|]. rewrite last_last. right. apply in_app_iff. right. left. reflexivity.
Qed.

Section Mon.
  Context {S : Type}.
  (** The call ends in state [s'] with outcome [r]. *)
  Definition goes {A} (m : act S A) (s s' : S) (r : res A) : Prop := final m s = s' /\ outcome m s = r.

  Lemma goes_ret {A} (a : A) s : goes (ret a) s s (Ok a).
  Proof. split; reflexivity. Qed.
  Lemma goes_get s : goes get s s (Ok s).
  Proof. split; reflexivity. Qed.
  Lemma goes_upd f (s : S) : goes (upd f) s (f s) (Ok tt).
  Proof. split; reflexivity. Qed.
  Lemma goes_lift {A} (r : res A) (s : S) : goes (lift r) s s r.
  Proof. split; reflexivity. Qed.
  Lemma goes_bind {A B} (m : act S A) (f : A -> act S B) s s1 s2 a r :
    goes m s s1 (Ok a) -> goes (f a) s1 s2 r -> goes (abind m f) s s2 r.
  Proof.
    unfold goes, final, outcome, abind. intros [H1 H2] [H3 H4]. destruct (m s) as [l o]. cbn in H1, H2. subst.
    destruct (f a (last l s)) as [l' r']. cbn. split; [apply last_app|reflexivity].
  Qed.
  Lemma goes_err {A B} (m : act S A) (f : A -> act S B) s s1 e : goes m s s1 (Err e) -> goes (abind m f) s s1 (Err e).
  Proof. unfold goes, final, outcome, abind. intros [H1 H2]. destruct (m s) as [l o]. cbn in H1, H2. subst. split; reflexivity. Qed.
  Lemma goes_timeout {A B} (m : act S A) (f : A -> act S B) s s1 : goes m s s1 Timeout -> goes (abind m f) s s1 Timeout.
  Proof. unfold goes, final, outcome, abind. intros [H1 H2]. destruct (m s) as [l o]. cbn in H1, H2. subst. split; reflexivity. Qed.
  Lemma goes_self {A} (m : act S A) s : goes m s (final m s) (outcome m s).
  Proof. split; reflexivity. Qed.

  Lemma outcome_bind {A B} (m : act S A) (f : A -> act S B) s :
    outcome (abind m f) s = match outcome m s with Ok a => outcome (f a) (final m s) | Err e => Err e | Timeout => Timeout end.
  Proof. unfold outcome, final, abind. destruct (m s) as [l [a| |]]; cbn; auto. destruct (f a (last l s)); reflexivity. Qed.
  Lemma final_bind {A B} (m : act S A) (f : A -> act S B) s :
    final (abind m f) s = match outcome m s with Ok a => final (f a) (final m s) | _ => final m s end.
  Proof.
    unfold outcome, final, abind. destruct (m s) as [l [a| |]]; cbn; auto.
    destruct (f a (last l s)) eqn:E. cbn. rewrite last_app. reflexivity.
  Qed.
  Lemma visits_bind {A B} (m : act S A) (f : A -> act S B) s t : In t (visits (abind m f) s) ->
    In t (visits m s) \/ exists a, outcome m s = Ok a /\ In t (visits (f a) (final m s)).
  Proof.
    unfold visits, outcome, final, abind. destruct (m s) as [l [a| |]] eqn:E; cbn [fst snd]; auto.
    destruct (f a (last l s)) as [l' r] eqn:E2. cbn [fst snd]. intros [H|H]; [left; left; auto|].
    apply in_app_iff in H. destruct H as [H|H]; [left; right; auto|]. right. exists a. split; auto. rewrite E2. right. exact H.
  Qed.
  Lemma visits_self {A} (m : act S A) s : In s (visits m s).
  Proof. left. reflexivity. Qed.
  Lemma visits_final {A} (m : act S A) s : In (final m s) (visits m s).
  Proof. apply In_last. Qed.
  Lemma visits_upd f (s t : S) : In t (visits (upd f) s) -> t = s \/ t = f s.
  Proof. intros [H|[H|[]]]; auto. Qed.
  Lemma visits_ret {A} (a : A) (s t : S) : In t (visits (ret a) s) -> t = s.
  Proof. intros [H|[]]; auto. Qed.
  Lemma visits_lift {A} (r : res A) (s t : S) : In t (visits (lift r) s) -> t = s.
  Proof. intros [H|[]]; auto. Qed.
  Lemma visits_get (s t : S) : In t (visits get s) -> t = s.
  Proof. intros [H|[]]; auto. Qed.
  Lemma visits_raise {A} e (s t : S) : In t (visits (@raise S A e) s) -> t = s.
  Proof. intros [H|[]]; auto. Qed.

  (** A reflexive and transitive relation kept by every assignment relates the
      first state to all that are visited. *)
  Section Frame.
    Variable R : S -> S -> Prop.
    Hypothesis Rr : forall s, R s s.
    Hypothesis Rt : forall a b c, R a b -> R b c -> R a c.
    Definition framed {A} (m : act S A) : Prop := forall s t, In t (visits m s) -> R s t.
    Lemma framed_ret {A} (a : A) : framed (ret a).
    Proof. intros s t H. apply visits_ret in H. subst. auto. Qed.
    Lemma framed_lift {A} (r : res A) : framed (lift r).
    Proof. intros s t H. apply visits_lift in H. subst. auto. Qed.
    Lemma framed_get : framed get.
    Proof. intros s t H. apply visits_get in H. subst. auto. Qed.
    Lemma framed_raise {A} e : framed (@raise S A e).
    Proof. intros s t H. apply visits_raise in H. subst. auto. Qed.
    Lemma framed_upd f : (forall s, R s (f s)) -> framed (upd f).
    Proof. intros Hf s t H. apply visits_upd in H. destruct H; subst; auto. Qed.
    Lemma framed_bind {A B} (m : act S A) (f : A -> act S B) : framed m -> (forall a, framed (f a)) -> framed (abind m f).
    Proof.
      intros Hm Hf s t H. apply visits_bind in H. destruct H as [H|(a & E & H)]; [apply Hm; auto|].
      eapply Rt; [apply (Hm s), visits_final|apply (Hf a); exact H].
    Qed.
    Lemma framed_each {A} (f : A -> act S unit) l : (forall a, framed (f a)) -> framed (each f l).
    Proof. intros Hf. induction l as [|a l IH]; cbn [each]; [apply framed_ret|]. apply framed_bind; auto. Qed.
  End Frame.
End Mon.

Section Zoom.
  Context {S T : Type} (g : S -> T) (p : T -> S -> S).
  Hypothesis pg : forall s, p (g s) s = s.
  Lemma zoom_final {A} (m : act T A) s : final (zoom g p m) s = p (final m (g s)) s.
  Proof.
    unfold final, zoom. destruct (m (g s)) as [l r]. cbn [fst].
    transitivity (last (map (fun t => p t s) l) (p (g s) s)); [rewrite pg; reflexivity|]. apply (last_map (fun t => p t s)).
  Qed.
  Lemma zoom_outcome {A} (m : act T A) s : outcome (zoom g p m) s = outcome m (g s).
  Proof. unfold outcome, zoom. destruct (m (g s)); reflexivity. Qed.
  Lemma zoom_visits {A} (m : act T A) s t : In t (visits (zoom g p m) s) -> exists u, In u (visits m (g s)) /\ t = p u s.
  Proof.
    unfold visits, zoom. destruct (m (g s)) as [l r] eqn:E. cbn [fst]. intros [H|H].
    - exists (g s). split; [left; auto|]. rewrite pg. auto.
    - apply in_map_iff in H. destruct H as (u & <- & H). exists u. split; [right; auto|auto].
  Qed.
  Lemma zoom_goes {A} (m : act T A) s t r : goes m (g s) t r -> goes (zoom g p m) s (p t s) r.
  Proof. intros [H1 H2]. split; [rewrite zoom_final, H1; reflexivity|rewrite zoom_outcome; auto]. Qed.
End Zoom.

(** The call [m] does what the function value [r] says: the same exception, or the
    state that [emb] assigns to the result. *)
Definition follows {S A B} (emb : B -> S) (out : B -> A) (r : res B) (m : act S A) (s : S) : Prop :=
  match r with
  | Ok b => goes m s (emb b) (Ok (out b))
  | Err e => outcome m s = Err e
  | Timeout => outcome m s = Timeout
  end.

Lemma follows_bind {S A B A' B'} (emb : B -> S) (out : B -> A) (r : res B) (m : act S A) s
    (emb' : B' -> S) (out' : B' -> A') (k : B -> res B') (f : A -> act S A') :
  follows emb out r m s -> (forall b, r = Ok b -> follows emb' out' (k b) (f (out b)) (emb b)) ->
  follows emb' out' (bind r k) (abind m f) s.
Proof.
  intros H1 H2. destruct r as [b|e|]; cbn [bind follows] in *.
  - specialize (H2 b eq_refl). destruct H1 as [F1 O1]. unfold follows in *.
    rewrite outcome_bind, O1, F1. destruct (k b) as [b'|e|]; auto. destruct H2 as [F2 O2]. split; [|rewrite outcome_bind, O1, F1; auto].
    rewrite final_bind, O1, F1. auto.
  - rewrite outcome_bind, H1. reflexivity.
  - rewrite outcome_bind, H1. reflexivity.
Qed.

Section Handlers.
  Context {F : Type} `{NF : Num F}.
  Variable argsortZ : list Z -> list nat.
  Notation unit1 := (fun _ => tt).

  (** ** Agreement with Handlers.v *)
  Lemma xadd_node_follows h l (c : v3 F) : goes (xadd_node l c) (x_node h) (x_node (add_node h l c)) (Ok tt).
  Proof. destruct h; split; reflexivity. Qed.

  Lemma del_rows_ok {A} (a : list A) (ls : list Z) l : length a = length ls -> del_rows a (positions l ls) = Ok (delete_at a (positions l ls)).
  Proof.
    intros E. unfold del_rows. replace (forallb _ _) with true; [reflexivity|]. symmetry. apply forallb_forall.
    intros i Hi. apply Nat.ltb_lt. rewrite E. apply positions_In in Hi. apply nth_error_Some. congruence.
  Qed.

  Lemma xdel_node_follows (h : option (nodeH F)) l : (forall h0, h = Some h0 -> length (n_coords h0) = length (n_labels h0)) ->
    follows x_node unit1 (del_node h l) (xdel_node l) (x_node h).
  Proof.
    intros Hl. destruct h as [[ls cs]|]; [|reflexivity]. specialize (Hl _ eq_refl). cbn in Hl.
    cbn [del_node follows n_labels n_coords]. unfold goes, final, outcome, xdel_node, abind, get, lift, upd, raise. cbn.
    rewrite (del_rows_ok ls ls l eq_refl). cbn. rewrite (del_rows_ok cs ls l Hl). cbn. auto.
  Qed.

  Lemma xfix_nodes_follows (h : nodeH F) :
    follows x_node unit1 (fix_nodes argsortZ (Some h)) (xfix_nodes argsortZ) (x_node (Some h)).
  Proof.
    destruct h as [ls cs]. unfold xfix_nodes. cbn. unfold follows, goes, final, outcome, abind, get, lift, upd. cbn.
    destruct (gather ls (argsortZ ls)); cbn; auto. destruct (gather cs (argsortZ ls)); cbn; auto.
  Qed.

  Lemma xadd_bound_follows h n v : follows x_bound unit1 (add_bound_U h n v) (xadd_bound_U n v) (x_bound h).
  Proof.
    destruct h as [[ns u]|]; [|split; reflexivity]. unfold xadd_bound_U. cbn. unfold follows, goes, final, outcome, abind, get, lift, upd. cbn.
    destruct (uv_vstack u v); cbn; auto.
  Qed.

  Lemma xdel_bound_follows h l : follows x_bound unit1 (del_bound_U h l) (xdel_bound_U l) (x_bound h).
  Proof.
    destruct h as [[ns u]|]; [|reflexivity]. unfold xdel_bound_U. cbn. unfold follows, goes, final, outcome, abind, get, lift, upd. cbn.
    rewrite (del_rows_ok ns ns l eq_refl). cbn. destruct (uv_delete u _); cbn; auto.
  Qed.

  Lemma each_follows {S A B} (emb : B -> S) (f : B -> A -> res B) (g : A -> act S unit) l :
    (forall b a, In a l -> follows emb unit1 (f b a) (g a) (emb b)) ->
    forall b, follows emb unit1 (foldM f l b) (each g l) (emb b).
  Proof.
    induction l as [|a l IH]; intros H b; [split; reflexivity|]. cbn [foldM each].
    apply (follows_bind emb unit1); [apply H; left; auto|]. intros b' _. cbn beta. apply IH. intros b0 a0 Hi. apply H. right. auto.
  Qed.

  Lemma xfix_bounds_follows h L : follows x_bound unit1 (fix_bounds_U argsortZ h L) (xfix_bounds_U argsortZ L) (x_bound h).
  Proof.
    unfold fix_bounds_U, xfix_bounds_U.
    assert (G : forall k : boundX -> act boundX unit, follows x_bound unit1 (fix_bounds_U argsortZ h L) (k (x_bound h)) (x_bound h) ->
              follows x_bound unit1 (fix_bounds_U argsortZ h L) (abind get k) (x_bound h)).
    { intros k. unfold follows, goes, final, outcome, abind, get. cbn. destruct (fix_bounds_U argsortZ h L); destruct (k (x_bound h) (x_bound h)); cbn; auto. }
    apply G. clear G. unfold fix_bounds_U.
    replace (match xb_nodes (x_bound h) with None => [] | Some ns => ns end) with (match h with None => [] | Some h0 => b_nodes h0 end) by (destruct h; reflexivity).
    cbn zeta.
    apply (follows_bind x_bound unit1).
    { apply each_follows. intros. apply xadd_bound_follows. }
    intros [[ns u]|] _; cbn beta; [|reflexivity].
    unfold follows, goes, final, outcome, abind, get, lift, upd. cbn.
    destruct (gather ns (argsortZ ns)); cbn; auto. destruct (uv_take u (argsortZ ns)); cbn; auto.
  Qed.

  Lemma xadd_force_follows h n (v : list F) : follows x_force unit1 (add_force h n v) (xadd_force n v) (x_force h).
  Proof.
    destruct h as [[ns w rows]|]; [|split; reflexivity]. unfold xadd_force. cbn. unfold follows, goes, final, outcome, abind, get, lift, upd, raise. cbn.
    destruct (w =? length v); cbn; auto.
  Qed.

  Lemma xdel_force_follows (h : option (forceH F)) l : (forall h0, h = Some h0 -> length (e_rows h0) = length (e_nodes h0)) ->
    follows x_force unit1 (del_force h l) (xdel_force l) (x_force h).
  Proof.
    intros Hl. destruct h as [[ns w rows]|]; [|reflexivity]. specialize (Hl _ eq_refl). cbn in Hl.
    unfold xdel_force. cbn. unfold follows, goes, final, outcome, abind, get, lift, upd, raise. cbn.
    rewrite (del_rows_ok ns ns l eq_refl). cbn. rewrite (del_rows_ok rows ns l Hl). cbn. auto.
  Qed.

  Lemma xfix_forces_follows (h : option (forceH F)) L : follows x_force unit1 (fix_forces argsortZ h L) (xfix_forces argsortZ L) (x_force h).
  Proof.
    unfold xfix_forces.
    assert (G : forall k : forceX F -> act (forceX F) unit, follows x_force unit1 (fix_forces argsortZ h L) (k (x_force h)) (x_force h) ->
              follows x_force unit1 (fix_forces argsortZ h L) (abind get k) (x_force h)).
    { intros k. unfold follows, goes, final, outcome, abind, get. cbn. destruct (fix_forces argsortZ h L); destruct (k (x_force h) (x_force h)); cbn; auto. }
    apply G. clear G. destruct h as [h0|]; [|reflexivity]. cbn [x_force xf_rows xf_nodes]. unfold fix_forces.
    apply (follows_bind x_force unit1).
    { apply (each_follows x_force (fun (h : option (forceH F)) n => add_force h n (repeat f0 (e_width h0))) _ _ (fun b a _ => xadd_force_follows b a _) (Some h0)). }
    intros [[ns w rows]|] Eo; cbn beta.
    2: { exfalso. revert Eo. generalize (missing L (e_nodes h0)) at 1. intros l. generalize (e_width h0). intros wd. generalize h0. clear.
         induction l as [|n l IH]; intros h; cbn [foldM]; [discriminate|]. unfold add_force at 1. destruct (_ =? _); cbn [bind]; [|discriminate]. apply IH. }
    unfold follows, goes, final, outcome, abind, get, lift, upd. cbn.
    destruct (gather ns (argsortZ ns)); cbn; auto. destruct (gather rows (argsortZ ns)); cbn; auto.
  Qed.

  Lemma xadd_element_follows (h : option (elemH F)) E : follows (fun o => o) unit1 (add_element h E) (xadd_element E) h.
  Proof.
    destruct h as [h|]; [|split; reflexivity]. unfold xadd_element. cbn. unfold follows, goes, final, outcome, abind, get, lift, upd. cbn.
    destruct (tab_vstack (el_mat h) (l_mat E)); cbn; auto. destruct (tab_vstack (el_geo h) (l_geo E)); cbn; auto.
  Qed.

  Definition el_aligned (h : elemH F) : Prop :=
    length (el_conns h) = length (el_labels h) /\ length (t_rows (el_mat h)) = length (el_labels h) /\ length (t_rows (el_geo h)) = length (el_labels h).

  Lemma xdel_element_follows (h : option (elemH F)) l : (forall h0, h = Some h0 -> el_aligned h0) ->
    follows (fun o => o) unit1 (del_element h l) (xdel_element l) h.
  Proof.
    intros Hl. destruct h as [h|]; [|reflexivity]. destruct (Hl _ eq_refl) as (H1 & H2 & H3).
    unfold xdel_element. cbn. unfold follows, goes, final, outcome, abind, get, lift, upd. cbn.
    rewrite (del_rows_ok _ _ l H1). cbn. rewrite (del_rows_ok _ _ l H2). cbn. rewrite (del_rows_ok _ _ l H3). cbn. auto.
  Qed.
End Handlers.

Lemma follows_lift {S A B C} (emb : C -> S) (out : C -> B) (r : res A) (k : A -> res C) (f : A -> act S B) s :
  (forall a, r = Ok a -> follows emb out (k a) (f a) s) -> follows emb out (bind r k) (abind (lift r) f) s.
Proof.
  intros H. destruct r as [a|e|]; cbn [bind].
  - specialize (H a eq_refl). unfold follows in *. rewrite outcome_bind. cbn. destruct (k a); auto.
    destruct H as [H1 H2]. split; [rewrite final_bind; cbn; auto|rewrite outcome_bind; auto].
  - reflexivity.
  - reflexivity.
Qed.

Lemma follows_upd {S B C} (emb : C -> S) (out : C -> B) r (g : S -> S) (f : unit -> act S B) s :
  follows emb out r (f tt) (g s) -> follows emb out r (abind (upd g) f) s.
Proof.
  intros H. unfold follows in *. rewrite outcome_bind. cbn. destruct r; auto.
  destruct H as [H1 H2]. split; [rewrite final_bind; cbn; auto|rewrite outcome_bind; auto].
Qed.

Lemma follows_get {S B C} (emb : C -> S) (out : C -> B) r (f : S -> act S B) s :
  follows emb out r (f s) s -> follows emb out r (abind get f) s.
Proof.
  intros H. unfold follows in *. rewrite outcome_bind. cbn. destruct r; auto.
  destruct H as [H1 H2]. split; [rewrite final_bind; cbn; auto|rewrite outcome_bind; auto].
Qed.

Lemma follows_ret {S A B C} (emb : C -> S) (out : C -> B) r (a : A) (f : A -> act S B) s :
  follows emb out r (f a) s -> follows emb out r (abind (ret a) f) s.
Proof.
  intros H. unfold follows in *. rewrite outcome_bind. cbn. destruct r; auto.
  destruct H as [H1 H2]. split; [rewrite final_bind; cbn; auto|rewrite outcome_bind; auto].
Qed.

Section Model.
  Context {F : Type} `{NF : Num F}.
  Notation AN := (analysis F).
  Notation XM := (xmodel F).
  Variable argsortZ : list Z -> list nat.
  Variable argsortF : list F -> list nat.
  Variable solve : list (list F) -> list F -> list F.
  Notation unit1 := (fun _ => tt).

  Lemma put_nodes_same (s : XM) : put_nodes (x_nodes s) s = s.
  Proof. destruct s; reflexivity. Qed.
  Lemma put_elems_same (s : XM) : put_elems (x_elems s) s = s.
  Proof. destruct s; reflexivity. Qed.
  Lemma put_bounds_same (s : XM) : put_bounds (x_bounds s) s = s.
  Proof. destruct s; reflexivity. Qed.
  Lemma put_forces_same (s : XM) : put_forces (x_forces s) s = s.
  Proof. destruct s; reflexivity. Qed.

  (** ** build *)
  Lemma xbuild_follows (m : model F) : follows x_of unit1 (build argsortZ m) (xbuild argsortZ) (x_of m).
  Proof.
    unfold xbuild. apply follows_upd, follows_upd, follows_get.
    unfold build. destruct m as [nodes elems bounds forces st built]. cbn [m_nodes m_elems m_bounds m_forces m_set].
    destruct nodes as [nh0|]; [|reflexivity]. cbn [x_of put_an put_res x_nodes x_node m_nodes xn_labels need]. apply follows_ret.
    cbn zeta. apply follows_upd. cbn [x_elems put_an put_res m_elems].
    destruct elems as [eh|]; [|reflexivity]. cbn [need]. apply follows_ret. cbn zeta.
    set (s0 := put_nnodes _ _).
    (* nodes *)
    apply (follows_bind (fun o => XModel (x_node o) (Some eh) (x_bound bounds) (x_force forces) st (Some (length (n_labels nh0))) (x_ndof1 s0) None (Some ([], []))) unit1).
    { pose proof (xfix_nodes_follows argsortZ nh0) as H. unfold in_nodes, follows in *.
      destruct (fix_nodes argsortZ (Some nh0)) as [o| |]; [|rewrite zoom_outcome; exact H|rewrite zoom_outcome; exact H].
      apply (zoom_goes x_nodes put_nodes put_nodes_same (xfix_nodes argsortZ) s0 _ _ H). }
    intros [nh|] En; [|apply follows_get; reflexivity]. apply follows_get.
    cbn [x_nodes x_node xn_labels need]. apply follows_ret. set (L := n_labels nh).
    (* supports *)
    apply (follows_bind (fun o => XModel (x_node (Some nh)) (Some eh) (x_bound o) (x_force forces) st (Some (length (n_labels nh0))) (x_ndof1 s0) None (Some ([], []))) unit1).
    { pose proof (xfix_bounds_follows argsortZ bounds L) as H. unfold in_bounds, follows in *.
      destruct (fix_bounds_U argsortZ bounds L) as [o| |]; [|rewrite zoom_outcome; exact H|rewrite zoom_outcome; exact H].
      apply (zoom_goes x_bounds put_bounds put_bounds_same (xfix_bounds_U argsortZ L) (XModel (x_node (Some nh)) (Some eh) (x_bound bounds) (x_force forces) st (Some (length (n_labels nh0))) (x_ndof1 s0) None (Some ([], []))) _ _ H). }
    intros ob Eb. cbn beta.
    (* loads *)
    apply (follows_bind (fun o => XModel (x_node (Some nh)) (Some eh) (x_bound ob) (x_force o) st (Some (length (n_labels nh0))) (x_ndof1 s0) None (Some ([], []))) unit1).
    { pose proof (xfix_forces_follows argsortZ forces L) as H. unfold in_forces, follows in *.
      destruct (fix_forces argsortZ forces L) as [o| |]; [|rewrite zoom_outcome; exact H|rewrite zoom_outcome; exact H].
      apply (zoom_goes x_forces put_forces put_forces_same (xfix_forces argsortZ L) (XModel (x_node (Some nh)) (Some eh) (x_bound ob) (x_force forces) st (Some (length (n_labels nh0))) (x_ndof1 s0) None (Some ([], []))) _ _ H). }
    intros oe Ee. cbn beta. apply follows_get. cbn [x_bounds x_forces x_set].
    destruct ob as [bh|]; [|reflexivity]. cbn [x_bound xb_nodes xb_vals need]. apply follows_ret.
    destruct oe as [fh|].
    2: { exfalso. unfold fix_forces in Ee. destruct forces; [|discriminate]. mstep Ee. destruct a; [|discriminate]. mstep Ee. mstep Ee. discriminate. }
    apply follows_lift. intros c1 E1. cbn [x_force xf_nodes xf_rows need]. apply follows_ret. apply follows_lift. intros c2 E2.
    destruct (negb c2); [reflexivity|]. cbn zeta. apply follows_upd, follows_ret. apply follows_lift. intros D0 E3. apply follows_lift. intros D1 E4.
    apply follows_upd. apply follows_lift. intros an E5. apply follows_upd, follows_ret. split; reflexivity.
  Qed.

  (** ** run *)
  (** The object during a run, between two steps. *)
  Definition x_mid (m : model F) (u : built F) (s : runst F) : XM :=
    XModel (x_node (m_nodes m)) (m_elems m) (x_bound (m_bounds m)) (x_force (m_forces m)) (m_set m)
      (Some (u_nnodes u)) (Some (u_ndof1 u)) (Some (r_an s)) (Some (r_R s, r_lpf_end s)).

  Lemma write_results l : forall (t : XM) R e, x_res t = Some (R, e) -> R <> [] ->
    goes (each (fun a => abind (upd (fun s => put_res (option_map (fun R => (removelast (fst R) ++ [a], snd R)) (x_res s)) s))
                         (fun _ => upd (fun s => put_res (option_map (fun R => (fst R ++ [a], snd R)) (x_res s)) s))) l)
      t (put_res (Some (fold_left write_result l R, e)) t) (Ok tt).
  Proof.
    induction l as [|a l IH]; intros t R e Ht HR.
    - cbn [each fold_left]. rewrite <- Ht. destruct t; split; reflexivity.
    - cbn [each fold_left]. eapply goes_bind; [eapply goes_bind; [apply goes_upd|apply goes_upd]|].
      rewrite Ht. cbn [option_map fst snd put_res x_res].
      replace ((removelast R ++ [a]) ++ [a]) with (write_result R a) by (unfold write_result; rewrite <- app_assoc; reflexivity).
      apply (IH (put_res (Some (write_result R a, e)) t) (write_result R a) e eq_refl).
      unfold write_result. destruct (removelast R); discriminate.
  Qed.

  Lemma step_follows m u c st rows nsteps fuel (s : runst F) step : r_R s <> [] ->
    follows (x_mid m u) unit1 (run_step argsortF solve c st rows nsteps fuel s step)
      (xrun_step argsortF solve c st rows nsteps fuel step) (x_mid m u s).
  Proof.
    intros HR. unfold run_step, xrun_step. apply follows_get. cbn [x_mid x_an x_res need]. apply follows_ret, follows_ret.
    apply follows_lift. intros incs E1. apply follows_lift. intros xl E2. apply follows_upd.
    replace (step_setup rows step (Rs (r_an s) (fst (r_R s, r_lpf_end s)) (snd (r_R s, r_lpf_end s)) [])) with (step_setup rows step s) by reflexivity.
    apply follows_lift. intros an E3. apply follows_lift. intros pf E4. apply follows_upd.
    set (t := put_an _ _). cbn zeta. set (R1 := fold_left write_result _ _).
    assert (HR1 : R1 <> []).
    { unfold R1. generalize (map snd (tl (ps_res pf))). intros l. revert HR. generalize (r_R s). induction l as [|a l IH]; intros R HR; cbn; auto.
      apply IH. unfold write_result. destruct (removelast R); discriminate. }
    pose proof (write_results (map snd (tl (ps_res pf))) t (r_R s) (r_lpf_end s) eq_refl HR) as HW.
    fold R1 in HW. destruct HW as [W1 W2].
    assert (G : forall B C (emb : C -> XM) (out : C -> B) r (k : unit -> act XM B),
              follows emb out r (k tt) (put_res (Some (R1, r_lpf_end s)) t) ->
              follows emb out r (abind (each (fun a => abind (upd (fun s => put_res (option_map (fun R => (removelast (fst R) ++ [a], snd R)) (x_res s)) s))
                         (fun _ => upd (fun s => put_res (option_map (fun R => (fst R ++ [a], snd R)) (x_res s)) s))) (map snd (tl (ps_res pf)))) k) t).
    { intros B C emb out r k H. unfold follows in *. rewrite outcome_bind, W2, W1. destruct r; auto. destruct H as [H1 H2].
      split; [rewrite final_bind, W2, W1; auto|rewrite outcome_bind, W2, W1; auto]. }
    apply G. clear G. apply follows_upd, follows_get. cbn [t put_res put_an x_res option_map fst snd need]. apply follows_ret.
    cbn [fst snd]. apply follows_lift. intros lpf E5. apply follows_upd. destruct (_ <? _); split; reflexivity.
  Qed.

  Lemma step_R c st rows nsteps fuel (s s' : runst F) step : r_R s <> [] -> step + 1 < nsteps ->
    run_step argsortF solve c st rows nsteps fuel s step = Ok s' -> r_R s' <> [].
  Proof.
    intros HR Hs H. unfold run_step in H. mstep H. mstep H. mstep H. mstep H. cbn zeta in H. mstep H.
    replace (step + 1 <? nsteps) with true in H by (symmetry; apply Nat.ltb_lt; auto). injection H as <-. cbn [r_R].
    intros E. rewrite E in Ha3. discriminate.
  Qed.

  (** Steps [i .. i+k-1] of a run. *)
  Lemma steps_follow m u c st rows nsteps fuel k : forall i (s : runst F), r_R s <> [] -> i + k <= nsteps ->
    follows (x_mid m u) unit1 (foldM (run_step argsortF solve c st rows nsteps fuel) (seq i k) s)
      (each (xrun_step argsortF solve c st rows nsteps fuel) (seq i k)) (x_mid m u s).
  Proof.
    induction k as [|k IH]; intros i s HR Hk; [split; reflexivity|]. cbn [seq foldM each].
    apply (follows_bind (x_mid m u) unit1); [apply step_follows; auto|].
    intros s' E. cbn beta. destruct k as [|k]; [split; reflexivity|]. apply IH; [|lia]. eapply step_R; [exact HR| |exact E]. lia.
  Qed.

  Lemma xrun_follows (m : model F) fuel :
    follows (fun p => x_of (fst p)) unit1 (run argsortF solve m fuel) (xrun argsortF solve fuel) (x_of m).
  Proof.
    destruct m as [nodes elems bounds forces st built]. unfold xrun. apply follows_get. unfold run.
    cbn zeta. cbn [x_of x_set x_an x_nnodes x_ndof1 x_res x_nodes x_elems x_forces m_nodes m_elems m_bounds m_forces m_set m_built].
    destruct (_ && _); [reflexivity|]. destruct (_ && _); [reflexivity|].
    destruct built as [u|]; cbn [option_map need]; [|reflexivity]. apply follows_ret, follows_ret, follows_ret, follows_ret.
    destruct nodes as [nh|]; cbn [x_node xn_labels xn_coords need]; [|reflexivity]. apply follows_ret, follows_ret.
    destruct elems as [eh|]; cbn [need]; [|reflexivity]. apply follows_ret.
    destruct forces as [fh|]; cbn [x_force xf_rows need]; [|reflexivity]. apply follows_ret.
    cbn [fst snd]. destruct (u_R u) as [|r0 R0] eqn:ER; [reflexivity|].
    apply follows_upd, follows_upd.
    set (c := Ctx _ _ _ _ _ _). set (n := Z.to_nat _). set (s0 := Rs _ _ _ _).
    pose proof (steps_follow (Model (Some nh) (Some eh) bounds (Some fh) st (Some u)) u c st (e_rows fh) n fuel n 0 s0 ltac:(discriminate) ltac:(lia)) as H.
    unfold follows in *.
    match goal with |- context [outcome _ ?t = Timeout] => change t with (x_mid (Model (Some nh) (Some eh) bounds (Some fh) st (Some u)) u s0) end.
    destruct (foldM _ _ _) as [s| |]; cbn [bind]; exact H.
  Qed.
End Model.
