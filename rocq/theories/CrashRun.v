(** * Lemmas for PropCrash.v: a run that raises or is interrupted *)
From Coq Require Import List ZArith Bool Arith Lia.
Import ListNotations.
From Verif Require Import Num Vec ListFacts Handlers Material Analysis Truss Equil Solver Run SpecBuild BuildFacts Crash CrashFacts SpecCrash CrashProps CrashBuild.

Section CrashRun.
  Context {F : Type} `{NF : Num F}.
  Notation XM := (xmodel F).
  Notation AN := (analysis F).
  Notation unit1 := (fun _ => tt).
  Variable AF : list F -> list nat.
  Variable S : list (list F) -> list F -> list F.

  (** ** The definition of the model is not touched *)
  Lemma same_refl (s : XM) : same_input s s.
  Proof. unfold same_input; auto. Qed.
  Lemma same_trans (a b c : XM) : same_input a b -> same_input b c -> same_input a c.
  Proof. unfold same_input. intuition congruence. Qed.

  Ltac frames := repeat first
    [apply (framed_bind same_input same_trans); [|intros ?]
    |apply (framed_lift same_input same_refl)|apply (framed_get same_input same_refl)|apply (framed_raise same_input same_refl)
    |apply (framed_ret same_input same_refl)
    |apply (framed_upd same_input same_refl); intros ?; unfold same_input; repeat split; reflexivity
    |apply (framed_each same_input same_refl same_trans); intros ?
    |progress cbn zeta
    |match goal with |- framed _ (need _ ?o) => destruct o; cbn [need] end
    |match goal with |- framed _ (match ?x with _ => _ end) => destruct x end].

  Lemma xrun_frame fuel : framed same_input (xrun AF S fuel).
  Proof. unfold xrun, xrun_step. frames. Qed.

  (** ** The results *)
  Definition pre {A} (a l : list A) : Prop := exists rest, l = a ++ rest /\ rest <> [].

  Lemma removelast_snoc {A} (l : list A) : l <> [] -> exists x, l = removelast l ++ [x].
  Proof. intros H. destruct (exists_last H) as (l' & x & ->). exists x. rewrite removelast_last. reflexivity. Qed.
  Lemma pre_removelast {A} (l : list A) : l <> [] -> pre (removelast l) l.
  Proof. intros H. destruct (removelast_snoc l H) as (x & E). exists [x]. split; [exact E|discriminate]. Qed.
  Lemma pre_write {A} (b l : list A) a : pre b l -> pre b (removelast l ++ [a]).
  Proof.
    intros (r & -> & Hr). rewrite removelast_app by auto. rewrite <- app_assoc. exists (removelast r ++ [a]). split; auto. destruct (removelast r); discriminate.
  Qed.
  Lemma pre_app {A} (b l : list A) a : pre b l -> pre b (l ++ [a]).
  Proof. intros (r & -> & Hr). rewrite <- app_assoc. exists (r ++ [a]). split; auto. destruct r; discriminate. Qed.
  Lemma pre_copy (b l : list AN) : pre b l -> pre b (copy_U_last l).
  Proof.
    intros H. unfold copy_U_last. destruct (rev l) as [|a r] eqn:E; [|apply pre_write; exact H].
    exfalso. destruct H as (r & -> & Hr). rewrite rev_app_distr in E. apply app_eq_nil in E. destruct E as [E _].
    apply (f_equal (@length _)) in E. rewrite rev_length in E. destruct r; auto; discriminate.
  Qed.


  (** All visited states satisfy [V]; the last one [K] if the call returns, [E] if not. *)
  Definition spec {B} (m : act XM B) t (V E : XM -> Prop) (K : XM -> B -> Prop) : Prop :=
    (forall t', In t' (visits m t) -> V t') /\
    match outcome m t with Ok b => K (final m t) b | _ => E (final m t) end.

  Lemma spec_weak {B} (m : act XM B) t V E (K K' : XM -> B -> Prop) : spec m t V E K -> (forall t' b, K t' b -> K' t' b) -> spec m t V E K'.
  Proof. intros [H1 H2] H. split; [exact H1|]. destruct (outcome m t); auto. Qed.
  Lemma spec_bind {B C} (m : act XM B) (f : B -> act XM C) t V E K1 K :
    spec m t V E K1 -> (forall t' b, K1 t' b -> spec (f b) t' V E K) -> spec (abind m f) t V E K.
  Proof.
    intros [H1 H2] Hf. unfold spec. rewrite outcome_bind, final_bind. split.
    - intros t' Hi. apply visits_bind in Hi. destruct Hi as [Hi|(a & Ea & Hi)]; [auto|]. rewrite Ea in H2. exact (proj1 (Hf _ _ H2) _ Hi).
    - destruct (outcome m t) as [b| |]; auto. exact (proj2 (Hf _ _ H2)).
  Qed.
  Lemma spec_lift {B C} (r : res B) (f : B -> act XM C) t (V E : XM -> Prop) K : V t -> ((forall b, r <> Ok b) -> E t) ->
    (forall b, r = Ok b -> spec (f b) t V E K) -> spec (abind (lift r) f) t V E K.
  Proof.
    intros HV HE H. eapply (spec_bind _ _ _ _ _ (fun t' b => t' = t /\ r = Ok b)).
    - split; [intros t' Hi; apply visits_lift in Hi; subst; auto|]. unfold outcome, final, lift. cbn. destruct r; auto; apply HE; discriminate.
    - intros t' b [-> Hb]. auto.
  Qed.
  Lemma spec_get {C} (f : XM -> act XM C) t (V E : XM -> Prop) K : V t -> spec (f t) t V E K -> spec (abind get f) t V E K.
  Proof.
    intros HV H. eapply (spec_bind _ _ _ _ _ (fun t' b => t' = t /\ b = t)); [|intros t' b [-> ->]; auto].
    split; [intros t' Hi; apply visits_get in Hi; subst; auto|]. cbn. auto.
  Qed.
  Lemma spec_need {B C} e (o : option B) (f : B -> act XM C) t (V E : XM -> Prop) K : V t -> (o = None -> E t) ->
    (forall b, o = Some b -> spec (f b) t V E K) -> spec (abind (need e o) f) t V E K.
  Proof.
    intros HV HE H. eapply (spec_bind _ _ _ _ _ (fun t' b => t' = t /\ o = Some b)); [|intros t' b [-> Eb]; auto].
    destruct o; (split; [intros t' Hi; first [apply visits_ret in Hi|apply visits_raise in Hi]; subst; auto|]); cbn; auto.
  Qed.
  Lemma spec_upd1 g t (V E : XM -> Prop) (K : XM -> unit -> Prop) : V t -> V (g t) -> K (g t) tt -> spec (upd g) t V E K.
  Proof. intros H1 H2 H3. split; [intros t' Hi; apply visits_upd in Hi; destruct Hi; subst; auto|]. exact H3. Qed.
  Lemma spec_upd {C} g (f : unit -> act XM C) t (V E : XM -> Prop) K : V t -> spec (f tt) (g t) V E K -> spec (abind (upd g) f) t V E K.
  Proof.
    intros HV H. eapply (spec_bind _ _ _ _ _ (fun t' _ => t' = g t)); [|intros t' [] ->; auto].
    apply spec_upd1; auto. apply (proj1 H). apply visits_self.
  Qed.
  Lemma spec_each {B} (f : B -> act XM unit) l (V E : XM -> Prop) : forall (G : list B -> XM -> Prop) t, G l t ->
    (forall t, G [] t -> V t) ->
    (forall a l t, G (a :: l) t -> spec (f a) t V E (fun t' _ => G l t')) -> spec (each f l) t V E (fun t' _ => G [] t').
  Proof.
    induction l as [|a l IH]; intros G t HG HV Hf; cbn [each].
    - split; [intros t' Hi; apply visits_ret in Hi; subst; auto|]. exact HG.
    - eapply spec_bind; [apply Hf; exact HG|]. cbn beta. intros t' [] HG'. apply IH; auto.
  Qed.

  Section Step.
    Variables (c : ctx F) (st : settings F) (rows : list (list F)) (n fuel : nat).

    Lemma step_spec step (s : runst F) (t : XM) : x_res t = Some (r_R s, r_lpf_end s) -> x_an t = Some (r_an s) -> r_R s <> [] ->
      spec (xrun_step AF S c st rows n fuel step) t
        (fun t' => (exists R, x_res t' = Some (R, r_lpf_end s) /\ pre (removelast (r_R s)) R) \/
                   (exists s' R, run_step AF S c st rows n fuel s step = Ok s' /\ x_res t' = Some (R, r_lpf_end s') /\
                      (r_R s' = R \/ step + 1 >= n /\ pre (r_R s') R)))
        (fun t' => x_res t' = x_res t) (fun _ _ => True).
    Proof.
      intros Ht Han HR. set (V := fun t' : XM => _ \/ _).
      assert (V0 : forall t' R, x_res t' = Some (R, r_lpf_end s) -> pre (removelast (r_R s)) R -> V t') by (intros t' R E1 E2; left; eauto).
      assert (P0 : pre (removelast (r_R s)) (r_R s)) by (apply pre_removelast; exact HR).
      assert (Vt : V t) by (eapply V0; eauto).
      unfold xrun_step. apply spec_get; [exact Vt|]. rewrite Han. apply spec_need; [exact Vt|reflexivity|]. intros an0 E0. injection E0 as <-.
      rewrite Ht at 1. apply spec_need; [exact Vt|reflexivity|]. intros R0 E0. injection E0 as <-. cbn [fst snd].
      apply spec_lift; [exact Vt|reflexivity|]. intros incs E1. apply spec_lift; [exact Vt|reflexivity|]. intros xl E2.
      apply spec_upd; [exact Vt|]. assert (Vt1 : V (put_an None t)) by (eapply V0; eauto).
      change (step_setup rows step (Rs (r_an s) (r_R s) (r_lpf_end s) [])) with (step_setup rows step s).
      apply spec_lift; [exact Vt1|reflexivity|]. intros an E3. apply spec_lift; [exact Vt1|reflexivity|]. intros pf E4.
      apply spec_upd; [exact Vt1|]. set (t2 := put_an (Some (ps_an pf)) (put_an None t)).
      set (l := map snd (tl (ps_res pf))).
      set (Rn := fold_left write_result l (r_R s)).
      (* from here on nothing fails *)
      set (G := fun l' (t' : XM) => exists R, x_res t' = Some (R, r_lpf_end s) /\ pre (removelast (r_R s)) R /\ fold_left write_result l' R = Rn).
      eapply (spec_bind _ _ _ _ _ (fun t' _ => G [] t')).
      { apply (spec_each _ l V _ G).
        - exists (r_R s). split; [exact Ht|]. split; [exact P0|reflexivity].
        - intros t' (R & K1 & K2 & _). eapply V0; eauto.
        - intros a l' t' (R & K1 & K2 & K3). apply spec_upd; [eapply V0; eauto|]. rewrite K1. cbn [option_map fst snd].
          apply spec_upd1.
          + eapply V0; [reflexivity|]. apply pre_write. exact K2.
          + cbn [put_res x_res option_map fst snd]. eapply V0; [reflexivity|]. apply pre_app, pre_write. exact K2.
          + exists (write_result R a). cbn [put_res x_res option_map fst snd]. split; [unfold write_result; rewrite <- app_assoc; reflexivity|].
            split; [|exact K3]. unfold write_result. change [a; a] with ([a] ++ [a]). rewrite app_assoc. apply pre_app, pre_write. exact K2. }
      cbn beta. intros t3 _ (R & K1 & K2 & K3). cbn [fold_left] in K3. subst R.
      apply spec_upd; [eapply V0; eauto|]. rewrite K1. cbn [option_map fst snd].
      set (t4 := put_res (Some (copy_U_last Rn, r_lpf_end s)) t3).
      assert (V4 : V t4) by (eapply V0; [reflexivity|]; apply pre_copy; exact K2).
      apply spec_get; [exact V4|]. apply spec_need; [exact V4|discriminate|]. intros R2 E5. injection E5 as <-. cbn [fst snd].
      assert (Hc : copy_U_last Rn <> []) by (destruct (pre_copy _ _ K2) as (r & -> & Hr); destruct (removelast (r_R s)), r; cbn; congruence).
      destruct (rev (copy_U_last Rn)) as [|a r] eqn:Er.
      { exfalso. apply Hc. rewrite <- (rev_involutive (copy_U_last Rn)), Er. reflexivity. }
      apply spec_lift; [exact V4|intros K; destruct (K _ eq_refl)|]. intros lpf E6. injection E6 as <-.
      apply spec_upd; [exact V4|].
      assert (Es : run_step AF S c st rows n fuel s step = Ok
        (if step + 1 <? n then Rs (set_lpf f0 (set_Vred (zero_last (a_Vred (ps_an pf))) (ps_an pf))) (copy_U_last Rn) (r_lpf_end s ++ [a_lpf a]) (r_out s ++ ps_out pf)
         else Rs (ps_an pf) (removelast (copy_U_last Rn)) (r_lpf_end s ++ [a_lpf a]) (r_out s ++ ps_out pf))).
      { unfold run_step. rewrite E1. cbn [bind]. rewrite E2. cbn [bind]. rewrite E3. cbn [bind]. rewrite E4. cbn [bind]. fold l Rn. rewrite Er. cbn [bind].
        destruct (_ <? _); reflexivity. }
      destruct (step + 1 <? n) eqn:En.
      - assert (V5 : forall t', x_res t' = Some (copy_U_last Rn, r_lpf_end s ++ [a_lpf a]) -> V t').
        { intros t' E. right. eexists. eexists. split; [exact Es|]. split; [exact E|]. left. reflexivity. }
        apply spec_upd1; [apply V5; reflexivity|apply V5; reflexivity|exact I].
      - assert (V5 : forall t', x_res t' = Some (copy_U_last Rn, r_lpf_end s ++ [a_lpf a]) -> V t').
        { intros t' E. right. eexists. eexists. split; [exact Es|]. split; [exact E|]. right. apply Nat.ltb_ge in En. split; [lia|]. apply pre_removelast. exact Hc. }
        apply spec_upd1; [apply V5; reflexivity| |exact I]. right. eexists. eexists. split; [exact Es|]. split; [reflexivity|]. left. reflexivity.
    Qed.

    Lemma run_step_err n' s step e : run_step AF S c st rows n fuel s step = Err e -> run_step AF S c st rows n' fuel s step = Err e.
    Proof.
      unfold run_step. destruct (at_step (s_incs st) step); cbn [bind]; auto.
      match goal with |- context [bind ?x _] => destruct x end; cbn [bind]; auto.
      destruct (step_setup rows step s); cbn [bind]; auto. destruct (pathfollow _ _ _ _ _ _ _ _ _ _); cbn [bind]; auto.
      match goal with |- context [bind ?x _] => destruct x end; cbn [bind]; auto. destruct (_ <? n); discriminate.
    Qed.
    Lemma run_step_more n' s step s' : step + 1 < n -> step + 1 < n' -> run_step AF S c st rows n fuel s step = Ok s' -> run_step AF S c st rows n' fuel s step = Ok s'.
    Proof.
      intros H1 H2. apply Nat.ltb_lt in H1, H2. unfold run_step. rewrite H1, H2. auto.
    Qed.
    Lemma run_step_last n' s step s' : step + 1 < n -> n' <= step + 1 -> run_step AF S c st rows n fuel s step = Ok s' ->
      exists s2, run_step AF S c st rows n' fuel s step = Ok s2 /\ r_R s2 = removelast (r_R s') /\ r_lpf_end s2 = r_lpf_end s'.
    Proof.
      intros H1 H2. apply Nat.ltb_lt in H1. apply Nat.ltb_ge in H2. unfold run_step. rewrite H1, H2. intros H.
      destruct (at_step (s_incs st) step); cbn [bind] in *; try discriminate.
      match type of H with context [bind ?x _] => destruct x end; cbn [bind] in *; try discriminate.
      destruct (step_setup rows step s); cbn [bind] in *; try discriminate. destruct (pathfollow _ _ _ _ _ _ _ _ _ _); cbn [bind] in *; try discriminate.
      match type of H with context [bind ?x _] => destruct x end; cbn [bind] in *; try discriminate. injection H as <-. eexists. split; [reflexivity|]. split; reflexivity.
    Qed.
  End Step.

  Section Steps.
    Variables (c : ctx F) (st : settings F) (rows : list (list F)) (fuel : nat).

    Lemma steps_more n n' k s s' : k < n -> k < n' -> foldM (run_step AF S c st rows n fuel) (seq 0 k) s = Ok s' ->
      foldM (run_step AF S c st rows n' fuel) (seq 0 k) s = Ok s'.
    Proof.
      intros H1 H2. revert s'. induction k as [|k IH]; intros s' H; [exact H|]. rewrite seq_S, foldM_app in *. cbn [foldM] in *.
      apply bind_ok in H. destruct H as (s1 & Hs & H). apply bind_ok in H. destruct H as (s2 & H3 & H). injection H as ->.
      rewrite (IH ltac:(lia) ltac:(lia) s1 Hs). cbn [bind]. rewrite (run_step_more c st rows n fuel n' s1 (0 + k) s' ltac:(lia) ltac:(lia) H3). reflexivity.
    Qed.
    Lemma steps_stop n k s s' : 0 < k -> k < n -> foldM (run_step AF S c st rows n fuel) (seq 0 k) s = Ok s' ->
      exists s2, foldM (run_step AF S c st rows k fuel) (seq 0 k) s = Ok s2 /\ r_R s2 = removelast (r_R s') /\ r_lpf_end s2 = r_lpf_end s'.
    Proof.
      destruct k as [|k]; [lia|]. intros _ Hk H. rewrite seq_S, foldM_app in *. cbn [foldM] in *.
      apply bind_ok in H. destruct H as (s1 & Hs & H). apply bind_ok in H. destruct H as (s2 & H3 & H). injection H as ->.
      rewrite (steps_more n (Datatypes.S k) k s s1 ltac:(lia) ltac:(lia) Hs). cbn [bind].
      destruct (run_step_last c st rows n fuel (Datatypes.S k) s1 (0 + k) s' ltac:(lia) ltac:(lia) H3) as (s3 & E & E1 & E2).
      exists s3. rewrite E. auto.
    Qed.
    Lemma steps_err n k s s1 e : k < n -> foldM (run_step AF S c st rows n fuel) (seq 0 k) s = Ok s1 ->
      run_step AF S c st rows n fuel s1 k = Err e -> foldM (run_step AF S c st rows (1 + k) fuel) (seq 0 (1 + k)) s = Err e.
    Proof.
      intros Hk H He. rewrite seq_S, foldM_app, (steps_more n (1 + k) k s s1 Hk ltac:(lia) H). cbn [bind foldM Nat.add].
      rewrite (run_step_err c st rows n fuel _ s1 k e He). reflexivity.
    Qed.
    Lemma steps_R n k s s' : k < n -> r_R s <> [] -> foldM (run_step AF S c st rows n fuel) (seq 0 k) s = Ok s' -> r_R s' <> [].
    Proof.
      intros Hk HR. revert s'. induction k as [|k IH]; intros s' H; [injection H as <-; exact HR|]. rewrite seq_S, foldM_app in H. cbn [foldM] in H.
      apply bind_ok in H. destruct H as (s1 & Hs & H). apply bind_ok in H. destruct H as (s2 & H3 & H). injection H as ->.
      eapply step_R; [apply (IH ltac:(lia) s1 Hs)| |exact H3]. lia.
    Qed.
  End Steps.

  (** ** The whole run, of a model that has just been built *)
  Section Whole.
    Variables (m : model F) (u : built F) (r0 : AN) (fuel : nat).
    Hypothesis Hu : m_built m = Some u.
    Hypothesis HR : u_R u = [r0].

    Definition start : runst F := Rs (set_lpf f0 (set_Vred (a_Ured (u_an u) ++ [f0]) (u_an u))) [r0; r0] (u_lpf_end u) [].
    Definition ok_settings (st : settings F) : Prop :=
      (1 <? s_log st)%Z && (match s_j0 st with Some _ => true | None => false end) = false /\
      (1 <? s_log st)%Z && s_stepcontrol st && (s_reduce st =? f0)%num = false.

    Lemma run_steps nh eh fh k : ok_settings (m_set m) -> m_nodes m = Some nh -> m_elems m = Some eh -> m_forces m = Some fh ->
      run AF S (with_nsteps (Z.of_nat k) m) fuel =
      bind (foldM (run_step AF S (Ctx (n_labels nh) (n_coords nh) eh (u_nnodes u) (u_ndof1 u) (s_nstatev (m_set m))) (m_set m) (e_rows fh) k fuel) (seq 0 k) start)
        (fun s => Ok (Model (m_nodes m) (m_elems m) (m_bounds m) (m_forces m) (m_set (with_nsteps (Z.of_nat k) m))
                  (Some (Built (u_nnodes u) (u_ndof1 u) (r_an s) (r_R s) (r_lpf_end s))), r_out s)).
    Proof.
      intros [K1 K2] E1 E2 E3. unfold run. cbn [with_nsteps m_nodes m_elems m_bounds m_forces m_set m_built s_log s_j0 s_stepcontrol s_reduce s_nsteps s_nstatev].
      cbn zeta. rewrite K1, K2, Hu, E1, E2, E3, HR. rewrite Nat2Z.id. unfold start. reflexivity.
    Qed.

    Lemma completed_k nh eh fh k n s' : ok_settings (m_set m) -> m_nodes m = Some nh -> m_elems m = Some eh -> m_forces m = Some fh ->
      k <= n ->
      foldM (run_step AF S (Ctx (n_labels nh) (n_coords nh) eh (u_nnodes u) (u_ndof1 u) (s_nstatev (m_set m))) (m_set m) (e_rows fh) n fuel) (seq 0 k) start = Ok s' ->
      exists mk uk, completed AF S fuel k m mk /\ m_built mk = Some uk /\ u_lpf_end uk = r_lpf_end s' /\
        u_R uk = (if k <? n then removelast (r_R s') else if k =? 0 then [r0] else r_R s').
    Proof.
      intros Ok1 E1 E2 E3 Hk H. destruct k as [|k].
      - exists m, u. injection H as <-. split; [left; auto|]. split; [exact Hu|]. split; [reflexivity|]. rewrite HR. destruct (0 <? n); reflexivity.
      - pose proof (run_steps nh eh fh (1 + k) Ok1 E1 E2 E3) as Hr. destruct (Datatypes.S k <? n) eqn:En.
        + apply Nat.ltb_lt in En. destruct (steps_stop _ _ _ _ n (1 + k) start s' ltac:(lia) En H) as (s2 & E & R1 & R2). rewrite E in Hr. cbn [bind] in Hr.
          eexists. eexists. split; [right; split; [lia|]; eexists; exact Hr|]. split; [reflexivity|]. split; [exact R2|exact R1].
        + apply Nat.ltb_ge in En. assert (n = 1 + k) by lia. subst n. change (Datatypes.S k) with (1 + k) in H. rewrite H in Hr. cbn [bind] in Hr.
          eexists. eexists. split; [right; split; [lia|]; eexists; exact Hr|]. split; [reflexivity|]. split; reflexivity.
    Qed.

    Notation nsteps := (Z.to_nat (s_nsteps (m_set m))).

    (** Where a run can be: before its first step, or in step [k]. *)
    Lemma run_places : 
      spec (xrun AF S fuel) (x_of m)
        (fun t => exists k mk uk rest, k <= nsteps /\ completed AF S fuel k m mk /\ m_built mk = Some uk /\ x_res t = Some (u_R uk ++ rest, u_lpf_end uk))
        (fun t => forall e, outcome (xrun AF S fuel) (x_of m) = Err e ->
           exists k mk uk rest, completed AF S fuel k m mk /\ m_built mk = Some uk /\ x_res t = Some (u_R uk ++ rest, u_lpf_end uk) /\
             length rest <= 1 /\ run AF S (with_nsteps (Z.of_nat (k + 1)) m) fuel = Err e)
        (fun _ _ => True).
    Proof.
      pose proof (xrun_follows AF S m fuel) as Hfol.
      set (V := fun t : XM => exists k mk uk rest, k <= nsteps /\ _). set (E := fun t : XM => forall e, _ -> _).
      assert (V0 : forall t rest, x_res t = Some (u_R u ++ rest, u_lpf_end u) -> V t).
      { intros t rest Et. exists 0, m, u, rest. split; [lia|]. split; [left; auto|auto]. }
      assert (Vs : V (x_of m)) by (apply (V0 _ []); unfold x_of; rewrite Hu, app_nil_r; reflexivity).
      (* raising before the first step *)
      assert (E0 : forall t, x_res t = x_res (x_of m) -> (forall e, run AF S m fuel = Err e -> run AF S (with_nsteps 1 m) fuel = Err e) -> E t).
      { intros t Et He e Ho. exists 0, m, u, []. split; [left; auto|]. split; [exact Hu|]. split; [rewrite Et; unfold x_of; rewrite Hu, app_nil_r; reflexivity|].
        split; [cbn; lia|]. apply He. unfold follows in Hfol. destruct (run AF S m fuel) as [p| |]; [destruct Hfol|..]; congruence. }
      unfold xrun. apply spec_get; [exact Vs|]. cbn zeta. change (x_set (x_of m)) with (m_set m).
      destruct ((1 <? s_log (m_set m))%Z && (match s_j0 (m_set m) with Some _ => true | None => false end)) eqn:K1.
      { split; [intros t Hi; apply visits_raise in Hi; subst; exact Vs|]. apply E0; [reflexivity|]. intros e. unfold run.
        cbn [with_nsteps m_set s_log s_j0]. rewrite K1. auto. }
      destruct ((1 <? s_log (m_set m))%Z && s_stepcontrol (m_set m) && (s_reduce (m_set m) =? f0)%num) eqn:K2.
      { split; [intros t Hi; apply visits_raise in Hi; subst; exact Vs|]. apply E0; [reflexivity|]. intros e. unfold run.
        cbn [with_nsteps m_set s_log s_j0 s_stepcontrol s_reduce]. rewrite K1, K2. auto. }
      assert (Es : ok_settings (m_set m)) by (split; assumption).
      assert (Ex1 : x_an (x_of m) = Some (u_an u)) by (unfold x_of; rewrite Hu; reflexivity).
      assert (Ex2 : x_nnodes (x_of m) = Some (u_nnodes u)) by (unfold x_of; rewrite Hu; reflexivity).
      assert (Ex3 : x_ndof1 (x_of m) = Some (u_ndof1 u)) by (unfold x_of; rewrite Hu; reflexivity).
      assert (Ex4 : x_res (x_of m) = Some ([r0], u_lpf_end u)) by (unfold x_of; rewrite Hu; cbn; rewrite HR; reflexivity).
      rewrite Ex1, Ex2, Ex3, Ex4.
      apply spec_need; [exact Vs|discriminate|]. intros an Ei. injection Ei as <-.
      apply spec_need; [exact Vs|discriminate|]. intros nn Ei. injection Ei as <-.
      apply spec_need; [exact Vs|discriminate|]. intros nd Ei. injection Ei as <-.
      apply spec_need; [exact Vs|discriminate|]. intros R Ei. injection Ei as <-. cbn [fst snd].
      assert (Eatt : m_nodes m = None \/ m_elems m = None \/ m_forces m = None -> E (x_of m)).
      { intros Hno. apply E0; [reflexivity|]. intros e. unfold run. cbn [with_nsteps m_nodes m_elems m_forces m_built m_set s_log s_j0 s_stepcontrol s_reduce]. rewrite K1, K2, Hu.
        destruct Hno as [->|[->| ->]]; auto; destruct (m_nodes m); auto; destruct (m_elems m); auto. }
      destruct (m_nodes m) as [nh|] eqn:En.
      2: { apply spec_need; [exact Vs|intros _; apply Eatt; auto|]. unfold x_of. rewrite En. discriminate. }
      assert (En1 : xn_labels (x_nodes (x_of m)) = Some (n_labels nh)) by (unfold x_of; rewrite En; reflexivity).
      assert (En2 : xn_coords (x_nodes (x_of m)) = Some (n_coords nh)) by (unfold x_of; rewrite En; reflexivity).
      rewrite En1, En2.
      apply spec_need; [exact Vs|discriminate|]. intros ls Ei. injection Ei as <-.
      apply spec_need; [exact Vs|discriminate|]. intros cs Ei. injection Ei as <-.
      destruct (m_elems m) as [eh|] eqn:Ee.
      2: { apply spec_need; [exact Vs|intros _; apply Eatt; auto|]. unfold x_of. cbn [x_elems]. rewrite Ee. discriminate. }
      assert (Ee1 : x_elems (x_of m) = Some eh) by (unfold x_of; cbn [x_elems]; exact Ee). rewrite Ee1.
      apply spec_need; [exact Vs|discriminate|]. intros e1 Ei. injection Ei as <-.
      destruct (m_forces m) as [fh|] eqn:Ef.
      2: { apply spec_need; [exact Vs|intros _; apply Eatt; auto|]. unfold x_of. rewrite Ef. discriminate. }
      assert (Ef1 : xf_rows (x_forces (x_of m)) = Some (e_width fh, e_rows fh)) by (unfold x_of; rewrite Ef; reflexivity). rewrite Ef1.
      apply spec_need; [exact Vs|discriminate|]. intros fr Ei. injection Ei as <-. cbn [fst snd].
      apply spec_upd; [exact Vs|]. apply spec_upd; [apply (V0 _ []); cbn [put_an x_res]; rewrite Ex4, HR; reflexivity|].
      set (t0 := put_res _ _). set (c := Ctx _ _ _ _ _ _). set (n := nsteps).
      assert (Et0 : t0 = x_mid m u start).
      { unfold t0, x_mid, x_of, start. cbn. rewrite Hu, En, Ef, Ee. reflexivity. }
      rewrite Et0. clearbody t0.
      pose proof (fun k s' H => completed_k nh eh fh k n s' Es En Ee Ef H) as Hck. fold c in Hck.
      assert (Hself : forall r : res (model F * list msg), 
                match foldM (run_step AF S c (m_set m) (e_rows fh) n fuel) (seq 0 n) start with Ok _ => False | Err e => r = Err e | Timeout => r = Timeout end -> run AF S m fuel = r).
      { intros r Hr. unfold run. cbn zeta. rewrite K1, K2, Hu, En, Ee, Ef, HR. fold c n. change (Rs _ _ _ _) with start.
        destruct (foldM _ _ _); cbn [bind]; [contradiction|auto|auto]. }
      (* the steps *)
      set (G := fun l (t : XM) => exists k s, l = seq k (n - k) /\ k <= n /\ foldM (run_step AF S c (m_set m) (e_rows fh) n fuel) (seq 0 k) start = Ok s /\ t = x_mid m u s).
      enough (HG : spec (each (xrun_step AF S c (m_set m) (e_rows fh) n fuel) (seq 0 n)) (x_mid m u start) V E (fun t' _ => G [] t'))
        by (eapply spec_weak; [exact HG|auto]).
      assert (HV : forall k s R, k <= n -> foldM (run_step AF S c (m_set m) (e_rows fh) n fuel) (seq 0 k) start = Ok s ->
                (exists rest, R = (if k <? n then removelast (r_R s) else if k =? 0 then [r0] else r_R s) ++ rest) ->
                forall t, x_res t = Some (R, r_lpf_end s) -> V t).
      { intros k s R Hk Hs (rest & ER) t Et. destruct (Hck k s Hk Hs) as (mk & uk & C1 & C2 & C3 & C4). exists k, mk, uk, rest. rewrite C4, C3, <- ER. auto. }
      apply (spec_each _ (seq 0 n) V E G).
      - exists 0, start. rewrite Nat.sub_0_r. split; [auto|]. split; [lia|]. split; [reflexivity|reflexivity].
      - intros t (k & s & El & Hk & Hs & ->). assert (k = n) by (destruct (n - k) eqn:Ed; [lia|discriminate]). subst k.
        eapply (HV n s _ Hk Hs); [|reflexivity]. rewrite Nat.ltb_irrefl. destruct (n =? 0) eqn:E0n; [|exists []; rewrite app_nil_r; reflexivity].
        apply Nat.eqb_eq in E0n. clear - E0n Hs. rewrite E0n in Hs. cbn in Hs. injection Hs as <-. exists [r0]. reflexivity.
      - intros a l t (k & s & El & Hk & Hs & ->).
        assert (Hkn : k < n) by (destruct (n - k) eqn:Ed; [discriminate|lia]).
        assert (a = k /\ l = seq (Datatypes.S k) (n - Datatypes.S k)) as [-> ->].
        { replace (n - k) with (Datatypes.S (n - Datatypes.S k)) in El by lia. cbn in El. injection El as -> ->. auto. }
        assert (HRs : r_R s <> []) by (eapply steps_R; [exact Hkn| |exact Hs]; discriminate).
        pose proof (step_follows AF S m u c (m_set m) (e_rows fh) n fuel s k HRs) as Hst.
        destruct (step_spec c (m_set m) (e_rows fh) n fuel k s (x_mid m u s) eq_refl eq_refl HRs) as [P1 P2].
        assert (Hnext : forall s', run_step AF S c (m_set m) (e_rows fh) n fuel s k = Ok s' ->
                  foldM (run_step AF S c (m_set m) (e_rows fh) n fuel) (seq 0 (Datatypes.S k)) start = Ok s').
        { intros s' E'. rewrite seq_S, foldM_app, Hs. cbn [bind foldM Nat.add]. rewrite E'. reflexivity. }
        assert (Hsplit : forall r, bind (run_step AF S c (m_set m) (e_rows fh) n fuel s k) (fun _ => Ok start) = r -> (forall x, r <> Ok x) ->
                  foldM (run_step AF S c (m_set m) (e_rows fh) n fuel) (seq 0 n) start = r).
        { intros r Hr Hne. replace n with (k + (1 + (n - Datatypes.S k))) at 2 by lia. rewrite seq_app, foldM_app, Hs. cbn [bind seq Nat.add foldM].
          destruct (run_step _ _ _ _ _ _ _ s k); cbn [bind] in *; [exfalso; eapply Hne; eauto|exact Hr|exact Hr]. }
        split.
        + intros t Hi. destruct (P1 t Hi) as [(R & Et & Hp)|(s' & R & E' & Et & Hp)].
          * eapply (HV k s R Hk Hs); [|exact Et]. apply Nat.ltb_lt in Hkn. rewrite Hkn. destruct Hp as (rest & -> & _). eauto.
          * eapply (HV (Datatypes.S k) s' R ltac:(lia) (Hnext s' E')); [|exact Et]. cbn [Nat.eqb]. destruct (Datatypes.S k <? n) eqn:El'.
            -- apply Nat.ltb_lt in El'. destruct Hp as [<-|[Hp _]]; [|lia].
               destruct (pre_removelast (r_R s')) as (rest & E1 & _); [|eauto]. eapply step_R; [exact HRs| |exact E']. lia.
            -- destruct Hp as [<-|[_ (rest & -> & _)]]; [exists []; rewrite app_nil_r; reflexivity|eauto].
        + unfold follows in Hst. destruct (run_step AF S c (m_set m) (e_rows fh) n fuel s k) as [s'| e'|] eqn:Er.
          * destruct Hst as [Hst1 Hst2]. rewrite Hst2. rewrite Hst1. exists (Datatypes.S k), s'. split; [auto|]. split; [lia|]. split; [apply Hnext; auto|reflexivity].
          * rewrite Hst in P2 |- *. intros e Ho.
            assert (Ee' : e = e').
            { unfold follows in Hfol. pose proof Ho as Ho'. 
              rewrite (Hself (Err e')) in Hfol; [congruence|]. rewrite (Hsplit (Err e')) by (try rewrite Er; first [reflexivity|discriminate]). reflexivity. }
            subst e'. destruct (Hck k s Hk Hs) as (mk & uk & C1 & C2 & C3 & C4).
            destruct (removelast_snoc (r_R s) HRs) as (x & Ex). exists k, mk, uk, [x]. split; [exact C1|]. split; [exact C2|].
            apply Nat.ltb_lt in Hkn. rewrite Hkn in C4. split; [rewrite P2, C3, C4, <- Ex; reflexivity|]. split; [cbn; lia|].
            apply Nat.ltb_lt in Hkn. rewrite Nat.add_1_r. rewrite (run_steps nh eh fh (Datatypes.S k) Es En Ee Ef). fold c.
            pose proof (steps_err c (m_set m) (e_rows fh) fuel n k start s e Hkn Hs Er) as Hse. change (1 + k) with (Datatypes.S k) in Hse. rewrite Hse. reflexivity.
          * rewrite Hst in P2 |- *. intros e Ho. exfalso. unfold follows in Hfol. rewrite (Hself Timeout) in Hfol; [congruence|].
            rewrite (Hsplit Timeout) by (try rewrite Er; first [reflexivity|discriminate]). reflexivity.
    Qed.
  End Whole.
End CrashRun.
