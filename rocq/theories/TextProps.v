(** * What the printed text says *)
From Coq Require Import List ZArith Bool Arith Lia.
Import ListNotations.
From Verif Require Import Num Vec Handlers Material Analysis Truss Equil Solver Run Text SpecSolver SpecRun SpecText ListFacts RunFacts RunProps TextFacts.

Section Proj.
  Context {F : Type} `{NF : Num F}.
  Notation L := (line F).

  (** Lines that none of the projections looks at. *)
  Definition plain (l : L) : Prop :=
    match l with
    | LIncrement _ | LRecycle | LError1 | LError2 | LExit | LFinal _ | LWrite _ _ _ | LStep _ => False
    | _ => True
    end.
  Lemma plain_proj (t : list L) : Forall plain t ->
    increments_in t = [] /\ finals_in t = [] /\ writes_in t = [] /\ steps_in t = [] /\ messages_in t = [].
  Proof.
    unfold increments_in, finals_in, writes_in, steps_in, messages_in.
    induction 1 as [|l t Hl _ (E1 & E2 & E3 & E4 & E5)]; [auto|]. cbn [flat_map]. rewrite E1, E2, E3, E4, E5.
    destruct l; cbn in *; auto; contradiction.
  Qed.

  Lemma increments_app (a b : list L) : increments_in (a ++ b) = increments_in a ++ increments_in b.
  Proof. apply flat_map_app. Qed.
  Lemma finals_app (a b : list L) : finals_in (a ++ b) = finals_in a ++ finals_in b.
  Proof. apply flat_map_app. Qed.
  Lemma writes_app (a b : list L) : writes_in (a ++ b) = writes_in a ++ writes_in b.
  Proof. apply flat_map_app. Qed.
  Lemma steps_app (a b : list L) : steps_in (a ++ b) = steps_in a ++ steps_in b.
  Proof. apply flat_map_app. Qed.
  Lemma messages_app (a b : list L) : messages_in (a ++ b) = messages_in a ++ messages_in b.
  Proof. apply flat_map_app. Qed.

  Definition all {A} (P : L -> Prop) (m : told L A) : Prop := Forall P (fst m).
  Lemma all_bind {A B} P (m : told L A) (k : A -> told L B) : all P m -> (forall a, all P (k a)) -> all P (tbind m k).
  Proof.
    intros H Hk. unfold all in *. destruct m as [t r]. destruct r as [a| |]; cbn; [|exact H..].
    apply Forall_app. split; [exact H|apply Hk].
  Qed.
  Lemma all_quiet {A} P (r : res A) : all P (quiet r).
  Proof. constructor. Qed.
  Lemma all_above v k P (ls : list L) : Forall P ls -> Forall P (above v k ls).
  Proof. unfold above. destruct (_ <? _)%Z; auto. Qed.

  Lemma tbind_ok {A B} (m : told L A) (k : A -> told L B) t b : tbind m k = (t, Ok b) ->
    exists t1 a t2, m = (t1, Ok a) /\ k a = (t2, Ok b) /\ t = t1 ++ t2.
  Proof.
    destruct m as [t1 [a| |]]; cbn; try discriminate. destruct (k a) as [t2 r] eqn:E. cbn. intros H. injection H as <- ->.
    exists t1, a, t2. auto.
  Qed.
  Lemma quiet_ok {A} (r : res A) (t : list L) a : quiet r = (t, Ok a) -> t = [] /\ r = Ok a.
  Proof. intros H. injection H as <- ->. auto. Qed.
  Lemma say_ok (l t : list L) a : say l = (t, Ok a) -> t = l.
  Proof. intros H. injection H as <- _. auto. Qed.

  Lemma above_on v k (l : list L) : (k < v)%Z -> above v k l = l.
  Proof. intros H. unfold above. destruct (Z.ltb_spec k v); [reflexivity|lia]. Qed.
  Lemma above_off v k (l : list L) : (v <= k)%Z -> above v k l = [].
  Proof. intros H. unfold above. destruct (Z.ltb_spec k v); [lia|reflexivity]. Qed.
End Proj.
Arguments all {F A}.

(** Steps of a text-carrying function that returned normally. *)
Tactic Notation "tq" hyp(H) simple_intropattern(a) ident(E) :=
  let t1 := fresh "tq" in let t2 := fresh "t" in
  apply tbind_ok in H as (t1 & a & t2 & E & H & ->); apply quiet_ok in E as [-> E]; cbn [app] in H |- *.
Tactic Notation "ts" hyp(H) simple_intropattern(a) ident(t1) ident(t2) ident(E) :=
  apply tbind_ok in H as (t1 & a & t2 & E & H & ->).
Tactic Notation "tsay" hyp(H) ident(t2) :=
  let t1 := fresh "tq" in let E := fresh "E" in let a := fresh "a" in
  apply tbind_ok in H as (t1 & a & t2 & E & H & ->); apply say_ok in E; subst t1.

Section Props.
  Context {F : Type} `{NF : Num F}.
  Variable argsortF : list F -> list nat.
  Variable solve : list (list F) -> list F -> list F.
  Notation L := (line F).

  Definition iterline (l : L) : Prop := match l with LIter _ _ => True | _ => False end.
  Lemma newton_lines {S : Type} v fn dfn ftol xtol k : forall n x prev (s : S),
    all iterline (newton_loop_t solve v fn dfn ftol xtol k n x prev s).
  Proof.
    induction k as [|k IH]; intros n x prev s; cbn [newton_loop_t]; [destruct prev as [[? ?]|]; apply all_quiet|].
    apply all_bind; [apply all_quiet|]. intros [s1 Km]. apply all_bind; [apply all_quiet|]. intros [s2 fv]. cbv zeta.
    apply all_bind; [apply all_quiet|]. intros x'. apply all_bind; [apply all_quiet|]. intros [s3 fv'].
    apply all_bind; [apply all_above; repeat constructor|]. intros _. destruct (_ && _); [apply all_quiet|apply IH].
  Qed.
  (** The rows of iterations of one Newton run: the last one shows the final norm. *)
  Lemma newton_rows {S : Type} v fn dfn ftol xtol k : (0 < v)%Z -> forall n x prev (s : S) t s' o,
    newton_loop_t solve v fn dfn ftol xtol k n x prev s = (t, Ok (s', o)) ->
    (k = O /\ t = [] /\ no_success o = false /\ exists xn, prev = Some (no_fnorm o, xn)) \/
    exists t' m, t = t' ++ [LIter m (no_fnorm o)] /\ (no_success o = true -> fltb (no_fnorm o) ftol = true).
  Proof.
    intros Hv. induction k as [|k IH]; intros n x prev s t s' o H; cbn [newton_loop_t] in H.
    { destruct prev as [[? ?]|]; [|discriminate]. injection H as <- <- <-. left. repeat split. eexists. reflexivity. }
    tq H [s1 Km] E1. tq H [s2 fv] E2. cbv zeta in H. tq H x' E3. tq H [s3 fv'] E4. tsay H t3. rewrite above_on by lia. right.
    destruct (_ && _) eqn:Ec.
    - apply quiet_ok in H as [-> H]. injection H as <- <-. exists [], (n + 1)%Z. cbn. split; [reflexivity|].
      intros _. now apply andb_prop in Ec.
    - apply IH in H as [(-> & -> & H & xn & Hx)|(t' & m & -> & H)].
      + injection Hx as E5 _. exists [], (n + 1)%Z. cbn. rewrite E5. split; [reflexivity|]. congruence.
      + exists (LIter (n + 1)%Z (fnorm fv') :: t'), m. auto.
  Qed.

  (** Lines that do not begin or end an increment, a step or a result. *)
  Definition inside (l : L) : Prop :=
    match l with LIncrement _ | LExit | LFinal _ | LWrite _ _ _ | LStep _ => False | _ => True end.
  Lemma inside_proj (t : list L) : Forall inside t ->
    increments_in t = [] /\ finals_in t = [] /\ writes_in t = [] /\ steps_in t = [].
  Proof.
    unfold increments_in, finals_in, writes_in, steps_in.
    induction 1 as [|l t Hl _ (E1 & E2 & E3 & E4)]; [auto|]. cbn [flat_map]. rewrite E1, E2, E3, E4.
    destruct l; cbn in *; auto; contradiction.
  Qed.
  Lemma all_impl {A} (P Q : L -> Prop) (m : told L A) : (forall l, P l -> Q l) -> all P m -> all Q m.
  Proof. intros H Hm. eapply Forall_impl; [exact H|exact Hm]. Qed.
  Lemma iter_plain l : iterline l -> plain l.
  Proof. destruct l; cbn; tauto. Qed.
  Lemma plain_inside (l : L) : plain l -> inside l.
  Proof. destruct l; cbn; tauto. Qed.

  Definition norms (t : list L) : list F := flat_map (fun l => match l with LIter _ v => [v] | _ => [] end) t.
  Lemma norms_app a b : norms (a ++ b) = norms a ++ norms b.
  Proof. apply flat_map_app. Qed.
  Definition noiter (l : L) : Prop := match l with LIter _ _ => False | _ => True end.
  Lemma noiter_norms t : Forall noiter t -> norms t = [].
  Proof. induction 1 as [|l t Hl _ IH]; [reflexivity|]. cbn. fold (norms t). rewrite IH. destruct l; cbn in *; auto; contradiction. Qed.
  Lemma last_norm_end (a : list L) m v (b : list L) : norms b = [] -> last_norm (a ++ [LIter m v] ++ b) = Some v.
  Proof.
    intros H. unfold last_norm. change (last (map Some (norms (a ++ [LIter m v] ++ b))) None = Some v).
    rewrite !norms_app, H, app_nil_r, map_app. cbn. apply last_last.
  Qed.
  Lemma last_norm_app (a b : list L) : norms b = [] -> last_norm (a ++ b) = last_norm a.
  Proof.
    intros H. unfold last_norm. change (last (map Some (norms (a ++ b))) None = last (map Some (norms a)) None).
    now rewrite norms_app, H, app_nil_r.
  Qed.
  Lemma last_norm_pre (a b : list L) v : last_norm b = Some v -> last_norm (a ++ b) = Some v.
  Proof.
    unfold last_norm. change (last (map Some (norms b)) None = Some v -> last (map Some (norms (a ++ b))) None = Some v).
    rewrite norms_app, map_app. destruct (norms b) as [|y l] using rev_ind; [discriminate|].
    rewrite map_app. cbn [map]. rewrite app_assoc, !last_last. auto.
  Qed.

  Definition both (l : L) : Prop := plain l /\ noiter l.
  Lemma dxmax_lines cfg dxmax dxmax0 j j0 z ok b n nfev :
    all both (dxmax_control_t cfg dxmax dxmax0 j j0 z ok b n nfev).
  Proof.
    unfold dxmax_control_t. apply all_bind; [apply all_quiet|]. intros d. apply all_bind; [apply all_quiet|]. intros d0.
    destruct (negb ok).
    - destruct (fltb _ _); [|apply all_quiet]. cbv zeta. apply all_bind; [destruct (_ =? _)%Z; repeat constructor|]. intros _.
      destruct (_ || _); [|apply all_quiet]. destruct (feqb _ _); [apply all_quiet|]. apply all_bind; [repeat constructor|]. intros; apply all_quiet.
    - destruct (fltb _ _); [|destruct (_ =? _)%Z; apply all_quiet]. destruct (j0 =? j)%Z; [|apply all_quiet].
      destruct (0 <? z)%Z; [apply all_quiet|]. destruct (b <=? 3)%Z; cbv zeta; (apply all_bind; [repeat constructor|]; intros; apply all_quiet).
  Qed.

  Lemma predict_lines v g dg cfg x dxmax j an : all both (predict_t argsortF solve v g dg cfg x dxmax j an).
  Proof.
    unfold predict_t. apply all_bind; [apply all_quiet|]. intros xj. apply all_bind; [apply all_quiet|]. intros dj. cbv zeta.
    apply all_bind.
    { unfold newton_t. cbn [newton_loop_t Z.to_nat Pos.to_nat Pos.iter_op]. apply all_bind; [apply all_quiet|]. intros [s1 Km].
      apply all_bind; [apply all_quiet|]. intros [s2 fv]. cbv zeta. apply all_bind; [apply all_quiet|]. intros x'.
      apply all_bind; [apply all_quiet|]. intros [s3 fv']. apply all_bind; [constructor|]. intros _. destruct (_ && _); apply all_quiet. }
    intros [an1 o]. apply all_bind; [apply all_quiet|]. intros Dx. apply all_bind; [apply all_quiet|]. intros [i1 v1].
    apply all_bind; [apply all_quiet|]. intros j'. apply all_bind; [apply all_above; repeat constructor|]. intros; apply all_quiet.
  Qed.

  Lemma recycle_lines v g dg cfg x0 dxmax0 pre fuel : forall s,
    all inside (recycle_t argsortF solve v g dg cfg x0 dxmax0 pre fuel s).
  Proof.
    induction fuel as [|fuel IH]; intros s; cbn [recycle_t]; [apply all_quiet|].
    apply all_bind; [apply all_above; repeat constructor|]. intros _. cbv zeta. apply all_bind; [apply all_quiet|]. intros xj.
    apply all_bind; [apply all_quiet|]. intros dj. apply all_bind; [apply all_quiet|]. intros xs.
    apply all_bind; [eapply all_impl; [|apply newton_lines]; intros l Hl; apply plain_inside, iter_plain, Hl|].
    intros [an1 o]. apply all_bind; [apply all_quiet|]. intros Dx.
    apply all_bind; [apply all_quiet|]. intros [i1 v1]. destruct (Nat.ltb _ 2); [apply all_quiet|].
    destruct (ranked argsortF Dx (rc_dxmax s) 1) as [i2 v2]. destruct (if Nat.ltb 2 _ then _ else _) as [i3 v3].
    apply all_bind; [apply all_above; repeat constructor|]. intros _. apply all_bind; [apply all_quiet|]. intros j. apply all_bind; [apply all_quiet|]. intros q.
    apply all_bind; [apply all_quiet|]. intros valid. apply all_bind.
    { destruct (cf_stepcontrol cfg); [|apply all_quiet]. eapply all_impl; [|apply dxmax_lines]. intros l [Hl _]. now apply plain_inside. }
    intros [[[dx' z'] b'] ch]. destruct (valid && _); [apply all_bind; [apply all_quiet|]; intros [? ?]; apply all_quiet|].
    destruct (_ =? _)%Z; [apply all_bind; [repeat constructor|]; intros; apply all_quiet|].
    destruct (_ && negb ch); [apply all_bind; [repeat constructor|]; intros; apply all_quiet|].
    apply all_bind; [repeat constructor|]. intros _. apply IH.
  Qed.

  Lemma both_facts (t : list L) : Forall both t -> messages_in t = [] /\ norms t = [].
  Proof.
    intros H. split.
    - apply plain_proj. eapply Forall_impl; [|exact H]. now intros l [Hl _].
    - apply noiter_norms. eapply Forall_impl; [|exact H]. now intros l [_ Hl].
  Qed.
  Lemma newton_messages {S : Type} v fn dfn x nfev ftol xtol (s : S) : messages_in (fst (newton_t solve v fn dfn x nfev ftol xtol s)) = [].
  Proof. apply plain_proj. eapply Forall_impl; [|apply newton_lines]. intros l Hl. now apply iter_plain. Qed.

  Lemma recycle_text v g dg cfg x0 dxmax0 pre fuel : forall s t r x stop,
    recycle_t argsortF solve v g dg cfg x0 dxmax0 pre fuel s = (t, Ok (r, x, stop)) ->
    rc_out r = rc_out s ++ messages_in t /\
    (stop = false -> (0 < v)%Z -> exists w, last_norm t = Some w /\ fltb w (cf_ftol cfg) = true) /\
    (stop = true <-> exists e, In e (messages_in t) /\ error_line e).
  Proof.
    induction fuel as [|fuel IH]; intros s t r x stop H; cbn [recycle_t] in H; [discriminate|].
    tsay H t1. cbv zeta in H. tq H xj E1. tq H dj E2. tq H xs E3. ts H [an1 o] tn t2 En. tq H Dx E4. tq H [i1 v1] E5.
    destruct (Nat.ltb _ 2); [discriminate|].
    destruct (ranked argsortF Dx (rc_dxmax s) 1) as [i2 v2]. destruct (if Nat.ltb 2 _ then _ else _) as [i3 v3].
    tsay H t3. tq H j E6. tq H q E7. tq H valid E8. ts H [[[dx' z'] b'] ch] tc t4 Ec.
    assert (Hc : messages_in tc = [] /\ norms tc = []).
    { apply both_facts. replace tc with (fst (tc, Ok (dx', z', b', ch))) by reflexivity. rewrite <- Ec.
      destruct (cf_stepcontrol cfg); [apply dxmax_lines|apply all_quiet]. }
    assert (Hn : messages_in tn = []).
    { pose proof (newton_messages v (f_ext g x0 (rc_j s) (xj + dj * fofZ (Z.sgn (rc_j s)))%num false) (dfdx dg (rc_j s)) xs (cf_nfev cfg - rc_npre s) (cf_ftol cfg) (cf_xtol cfg) (rc_an s)) as Hn.
      rewrite En in Hn. exact Hn. }
    assert (H1 : forall k ls, Forall both ls -> messages_in (above v k ls) = [] /\ norms (above v k ls) = []).
    { intros k ls Hls. apply both_facts, all_above, Hls. }
    destruct (H1 1%Z [LBlank; LTableHead; LTableRule] ltac:(repeat constructor)) as [M1 N1].
    destruct (H1 1%Z [LTotalHead; LTotal (rc_z s + 1) (no_n o + rc_npre s) (rc_j s) (no_fnorm o) i1 v1 i2 v2 i3 v3] ltac:(repeat constructor)) as [M2 N2].
    destruct Hc as [Mc Nc].
    assert (HM : forall u, messages_in (above v 1 [LBlank; LTableHead; LTableRule] ++ tn ++
        above v 1 [LTotalHead; LTotal (rc_z s + 1) (no_n o + rc_npre s) (rc_j s) (no_fnorm o) i1 v1 i2 v2 i3 v3] ++ tc ++ u) = messages_in u).
    { intros u. rewrite !messages_app, M1, M2, Mc, Hn. reflexivity. }
    rewrite HM. destruct (valid && no_success o) eqn:Ev.
    - tq H [an3 ?] Ef. apply quiet_ok in H as [-> H]. injection H as <- <- <-. cbn [rc_out]. split; [now rewrite app_nil_r|]. split.
      + intros _ Hv. apply andb_prop in Ev as [_ Ev].
        destruct (newton_rows v _ _ _ _ _ Hv _ _ _ _ _ _ _ En) as [(_ & _ & Hf & _)|(t' & m & -> & Hok)]; [congruence|].
        exists (no_fnorm o). split; [|auto]. rewrite <- app_assoc. rewrite (app_assoc _ t').
        apply last_norm_end. rewrite !norms_app, N2, Nc. reflexivity.
      + split; [discriminate|]. intros (e & [] & _).
    - destruct (z' + 1 =? _)%Z.
      { tsay H t5. apply quiet_ok in H as [-> H]. injection H as <- <- <-. cbn [rc_out]. split; [reflexivity|]. split; [discriminate|].
        split; [|auto]. intros _. exists MError1. split; [cbn; auto|]. now left. }
      destruct (_ && negb (no_success o) && negb ch).
      { tsay H t5. apply quiet_ok in H as [-> H]. injection H as <- <- <-. cbn [rc_out]. split; [reflexivity|]. split; [discriminate|].
        split; [|auto]. intros _. exists MError2. split; [cbn; auto|]. now right. }
      tsay H t5. apply IH in H as (H2 & H3 & H4). cbn [rc_out] in H2. split; [rewrite H2, <- app_assoc; reflexivity|]. split.
      + intros Hs Hv. destruct (H3 Hs Hv) as (w & Hw & Hlt). exists w. split; [|exact Hlt]. repeat apply last_norm_pre. exact Hw.
      + rewrite H4. cbn [messages_in flat_map app]. fold (messages_in t5). split; intros (e & He & Hle); exists e; (split; [|exact Hle]).
        * now right.
        * destruct He as [<-|He]; [destruct Hle; discriminate|exact He].
  Qed.

  (** Lines that may be added to the text of an increment. *)
  Definition calm (l : L) : Prop :=
    match l with LIter _ _ | LIncrement _ | LFinal _ | LError1 | LError2 | LRecycle => False | _ => True end.
  Lemma calm_facts (t : list L) : Forall calm t ->
    increments_in t = [] /\ finals_in t = [] /\ norms t = [] /\ (forall e, In e (messages_in t) -> ~ error_line e).
  Proof.
    intros H. assert (H0 : increments_in t = [] /\ finals_in t = [] /\ norms t = [] /\ Forall (eq MExit1) (messages_in t)).
    { induction H as [|l t Hl _ (E1 & E2 & E3 & E4)]; [repeat split; constructor|].
      unfold increments_in, finals_in, norms, messages_in in *; cbn [flat_map]. rewrite E1, E2, E3.
      destruct l; cbn in *; auto; contradiction. }
    destruct H0 as (H1 & H2 & H3 & H4). repeat split; auto. intros e He.
    rewrite Forall_forall in H4. rewrite <- (H4 _ He). intros [?|?]; discriminate.
  Qed.
  Lemma shows_more ftol sk p rec t : shows ftol sk p rec -> Forall calm t -> shows ftol sk (p ++ t) rec.
  Proof.
    intros (i & body & -> & H1 & H2 & H3) Ht. destruct (calm_facts _ Ht) as (C1 & C2 & C3 & C4).
    exists i, (body ++ t). rewrite increments_app, finals_app, H1, H2, C1, C2. repeat split.
    intros He. rewrite last_norm_app by exact C3. apply H3. intros e Hin. apply He. rewrite messages_app. apply in_or_app. now left.
  Qed.
  Definition parts_of (ftol : F) (sk : Prop) (t : list L) (recs : list (list F * analysis F)) : Prop :=
    exists head parts, t = head ++ concat parts /\ Forall calm head /\ Forall2 (shows ftol sk) parts recs.
  Lemma parts_calm ftol sk t : Forall calm t -> parts_of ftol sk t [].
  Proof. intros H. exists t, []. cbn. rewrite app_nil_r. auto. Qed.
  Lemma parts_more ftol sk t recs u : parts_of ftol sk t recs -> Forall calm u -> parts_of ftol sk (t ++ u) recs.
  Proof.
    intros (head & parts & -> & Hh & Hp) Hu. destruct parts as [|p parts _] using rev_ind.
    - inversion Hp. exists (head ++ u), []. cbn. rewrite !app_nil_r. split; [reflexivity|]. split; [now apply Forall_app|constructor].
    - apply Forall2_app_inv_l in Hp as (r1 & r2 & Hp1 & Hp2 & ->). inversion Hp2 as [|? y ? ? Hs H0]; subst. inversion H0; subst.
      exists head, (parts ++ [p ++ u]). split; [rewrite !concat_app; cbn; rewrite !app_nil_r, !app_assoc; reflexivity|]. split; [exact Hh|].
      apply Forall2_app; [exact Hp1|]. constructor; [|constructor]. now apply shows_more.
  Qed.
  Lemma parts_cat ftol sk t1 r1 t2 r2 : parts_of ftol sk t1 r1 -> parts_of ftol sk t2 r2 -> parts_of ftol sk (t1 ++ t2) (r1 ++ r2).
  Proof.
    intros H1 (head & parts & -> & Hh & Hp). rewrite app_assoc. destruct (parts_more _ _ _ _ _ H1 Hh) as (h1 & p1 & -> & Hh1 & Hp1).
    exists h1, (p1 ++ parts). rewrite concat_app, app_assoc. split; [reflexivity|]. split; [exact Hh1|now apply Forall2_app].
  Qed.
  Lemma parts_shows ftol sk t r : parts_of ftol sk t r -> shows_all ftol sk t r.
  Proof.
    intros (head & parts & -> & Hh & Hp). destruct (calm_facts _ Hh) as (C1 & C2 & _). exists head, parts. auto.
  Qed.

  Lemma heard_app v a b : heard v (a ++ b) = heard v a ++ heard v b.
  Proof. unfold heard. destruct (0 <? v)%Z; [reflexivity|apply filter_app]. Qed.
  Lemma heard_id v (t : list L) : Forall inside t -> heard v (messages_in t) = messages_in t.
  Proof.
    unfold heard. destruct (0 <? v)%Z; [reflexivity|]. induction 1 as [|l t Hl _ IH]; [reflexivity|].
    change (l :: t) with ([l] ++ t). rewrite messages_app, filter_app, IH.
    destruct l; cbn in *; try reflexivity; contradiction.
  Qed.

  Definition above_Z (v : Z) (l : list Z) : list Z := if (0 <? v)%Z then l else [].
  Definition above_F (v : Z) (l : list F) : list F := if (0 <? v)%Z then l else [].
  (** One increment. *)
  Lemma increment_text v g dg cfg dxmax0 fuel i s t s' stop :
    increment_t argsortF solve v g dg cfg dxmax0 fuel i s = (t, Ok (s', stop)) ->
    exists an out, ps_res s' = ps_res s ++ [(ps_x s', an)] /\ a_lpf an = last (ps_x s') f0 /\
      ps_out s' = ps_out s ++ out /\ messages_in t = heard v out /\ writes_in t = [] /\ steps_in t = [] /\
      increments_in t = above_Z v [i] /\ finals_in t = above_F v [last (ps_x s') f0] /\
      ((0 < v)%Z -> exists part, t = LBlank :: part /\ shows (cf_ftol cfg) (ps_jpre s = true /\ cf_jfixed cfg = false) part (ps_x s', an)) /\
      (ps_jpre s' = true -> ps_jpre s = true).
  Proof.
    unfold increment_t. intros H. tsay H t1. cbv zeta in H.
    ts H [s1 st1] tb t2 E. tsay H t3. apply quiet_ok in H as [-> H]. injection H as <- <-. rewrite app_nil_r.
    assert (HH : (ps_jpre s1 = true -> ps_jpre s = true) /\ exists an, ps_res s1 = ps_res s ++ [(ps_x s1, an)] /\ a_lpf an = last (ps_x s1) f0 /\
      Forall inside tb /\ ps_out s1 = ps_out s ++ MIncr :: messages_in tb /\
      ((0 < v)%Z -> (forall e, In e (messages_in tb) -> ~ error_line e) -> match last_norm tb with Some w => fltb w (cf_ftol cfg) = true | None => ps_jpre s = true /\ cf_jfixed cfg = false end)).
    { destruct (ps_jpre s && negb (cf_jfixed cfg)) eqn:Esk.
      - ts E p tp t4 Ep. pose proof (predict_lines v g dg cfg (ps_x s) (ps_dxmax s) (ps_j s) (ps_an s)) as Hp. rewrite Ep in Hp. unfold all in Hp. cbn [fst] in Hp.
        destruct (both_facts _ Hp) as [Mp Np].
        assert (Ip : Forall inside tp) by (eapply Forall_impl; [|exact Hp]; intros l [Hl _]; now apply plain_inside).
        destruct (pr_success p).
        + apply quiet_ok in E as [-> E]. injection E as <- <-. rewrite app_nil_r. split; [cbn [ps_jpre]; first [now intros _; apply andb_prop in Esk|auto]|]. eexists. cbn [ps_res ps_x ps_out].
          split; [reflexivity|]. split; [reflexivity|]. split; [exact Ip|]. split; [now rewrite Mp|].
          intros _ _. unfold last_norm. fold (norms tp). rewrite Np. cbn. apply andb_prop in Esk as [E1 E2]. now apply negb_true_iff in E2.
        + ts E [[r x] st2] tr t5 Er. apply quiet_ok in E as [-> E]. injection E as <- <-. rewrite app_nil_r. split; [cbn [ps_jpre]; first [now intros _; apply andb_prop in Esk|auto]|]. eexists. cbn [ps_res ps_x ps_out].
          split; [reflexivity|]. split; [reflexivity|].
          pose proof (recycle_lines v g dg cfg (ps_x s) dxmax0 (if negb (pr_j p =? 0)%Z then Some (pr_Dx p, pr_v p) else None) fuel (Rc (pr_an p) 0%Z (pr_j p) (ps_dxmax s) (ps_b s) (pr_n p) (ps_out s ++ [MIncr]))) as Hr.
          rewrite Er in Hr. apply recycle_text in Er as (R1 & R2 & R3). cbn [rc_out] in R1.
          split; [apply Forall_app; now split|]. split; [rewrite R1, messages_app, Mp, <- app_assoc; reflexivity|].
          intros Hv He. destruct st2.
          { exfalso. destruct (proj1 R3 eq_refl) as (e & Hin & Hl). apply (He e); [|exact Hl]. rewrite messages_app. apply in_or_app. now right. }
          destruct (R2 eq_refl Hv) as (w' & Hw' & Hlt). rewrite (last_norm_pre tp _ _ Hw'). exact Hlt.
      - ts E [[r x] st2] tr t5 Er. apply quiet_ok in E as [-> E]. injection E as <- <-. rewrite app_nil_r. split; [cbn [ps_jpre]; first [now intros _; apply andb_prop in Esk|auto]|]. eexists. cbn [ps_res ps_x ps_out].
        split; [reflexivity|]. split; [reflexivity|].
        pose proof (recycle_lines v g dg cfg (ps_x s) dxmax0 None fuel (Rc (ps_an s) 0%Z (ps_j s) (ps_dxmax s) (ps_b s) 0%Z (ps_out s ++ [MIncr]))) as Hr.
        rewrite Er in Hr. apply recycle_text in Er as (R1 & R2 & R3). cbn [rc_out] in R1.
        split; [exact Hr|]. split; [rewrite R1, <- app_assoc; reflexivity|].
        intros Hv He. destruct st2.
        { exfalso. destruct (proj1 R3 eq_refl) as (e & Hin & Hl). exact (He e Hin Hl). }
        destruct (R2 eq_refl Hv) as (w' & Hw' & Hlt). rewrite Hw'. exact Hlt. }
    destruct HH as (Hjp & an & H1 & H2 & H3 & H4 & H5). exists an, (MIncr :: messages_in tb).
    split; [exact H1|]. split; [exact H2|]. split; [exact H4|].
    destruct (inside_proj _ H3) as (P1 & P2 & P3 & P4).
    assert (Hh : Forall both (above v 1 [LTableHead; LTableRule])) by (apply all_above; repeat constructor).
    destruct (both_facts _ Hh) as [Mh Nh].
    assert (Ih : Forall plain (above v 1 [LTableHead; LTableRule])) by (eapply Forall_impl; [|exact Hh]; now intros l [Hl _]).
    destruct (plain_proj _ Ih) as (Q1 & Q2 & Q3 & Q4 & Q5).
    change (MIncr :: messages_in tb) with ([MIncr] ++ messages_in tb).
    rewrite heard_app, (heard_id v _ H3). unfold above_Z, above_F, heard.
    rewrite !messages_app, !writes_app, !steps_app, !increments_app, !finals_app, P1, P2, P3, P4, Q1, Q2, Q3, Q4, Q5.
    destruct (Z.ltb_spec 0 v) as [Hv|Hv].
    - rewrite !above_on by lia. cbn. rewrite app_nil_r. repeat match goal with |- _ /\ _ => split end; try reflexivity; [|exact Hjp].
      intros _. eexists. split; [reflexivity|]. eexists i, _. split; [reflexivity|].
      rewrite !increments_app, !finals_app, P1, P2, Q1, Q2. cbn [snd]. rewrite H2. split; [reflexivity|]. split; [reflexivity|].
      intros He. rewrite app_assoc, last_norm_app by reflexivity.
      assert (Hb : forall e, In e (messages_in tb) -> ~ error_line e)
        by (intros e Hin; apply He; rewrite !messages_app; apply in_or_app; right; apply in_or_app; now left).
      specialize (H5 Hv Hb). destruct (last_norm tb) as [w|] eqn:El; [rewrite (last_norm_pre _ _ _ El); exact H5|].
      unfold last_norm. fold (norms (above v 1 [LTableHead; LTableRule] ++ tb)). rewrite norms_app, Nh. cbn [app].
      fold (last_norm tb). change (last (map Some (norms tb)) None) with (last_norm tb). rewrite El. exact H5.
    - rewrite !above_off by lia. cbn. rewrite app_nil_r. repeat match goal with |- _ /\ _ => split end; try reflexivity; [lia|exact Hjp].
  Qed.

  (** What the text [t] of a path says of its records and messages. *)
  Definition tells (v : Z) (ftol : F) (sk : Prop) (i : Z) (t : list L) (recs : list (list F * analysis F)) (out : list msg) : Prop :=
    messages_in t = heard v out /\ writes_in t = [] /\ steps_in t = [] /\
    increments_in t = above_Z v (map (fun n => i + Z.of_nat n)%Z (seq 0 (length recs))) /\
    finals_in t = above_F v (map (fun p => a_lpf (snd p)) recs) /\
    ((0 < v)%Z -> parts_of ftol sk t recs).
  Lemma tells_nil v ftol sk i : tells v ftol sk i [] [] [].
  Proof. unfold tells, heard, above_Z, above_F. destruct (0 <? v)%Z; repeat split; intros; apply parts_calm; constructor. Qed.
  Lemma tells_more v ftol sk i t recs out u : tells v ftol sk i t recs out -> Forall plain u -> Forall noiter u ->
    tells v ftol sk i (t ++ u) recs out.
  Proof.
    intros (H1 & H2 & H3 & H4 & H5 & H6) Hu Hn. destruct (plain_proj _ Hu) as (U1 & U2 & U3 & U4 & U5).
    unfold tells. rewrite messages_app, writes_app, steps_app, increments_app, finals_app, U1, U2, U3, U4, U5, !app_nil_r.
    repeat match goal with |- _ /\ _ => split end; auto. intros Hv. apply parts_more; [auto|].
    rewrite Forall_forall in *. intros l Hl. specialize (Hu l Hl). specialize (Hn l Hl). destruct l; cbn in *; auto.
  Qed.

  Lemma shows_weaken ftol (sk sk' : Prop) p rec : (sk -> sk') -> shows ftol sk p rec -> shows ftol sk' p rec.
  Proof.
    intros Hs (i & body & E & H1 & H2 & H3). exists i, body. repeat split; auto. intros He. specialize (H3 He).
    destruct (last_norm body); auto.
  Qed.

  Lemma increments_text v g dg cfg dxmax0 fuel (sk : Prop) k : forall i s t s',
    increments_t argsortF solve v g dg cfg dxmax0 fuel k i s = (t, Ok s') ->
    (ps_jpre s = true /\ cf_jfixed cfg = false -> sk) ->
    exists recs out, ps_res s' = ps_res s ++ recs /\ ps_out s' = ps_out s ++ out /\ tells v (cf_ftol cfg) sk i t recs out.
  Proof.
    induction k as [|k IH]; intros i s t s' H Hsk; cbn [increments_t] in H.
    { apply quiet_ok in H as [-> H]. injection H as <-. exists [], []. rewrite !app_nil_r. split; [reflexivity|]. split; [reflexivity|apply tells_nil]. }
    ts H [s1 stop] t1 t2 E. apply increment_text in E as (an & out & R1 & R2 & R3 & R4 & R5 & R6 & R7 & R8 & R9 & R10).
    assert (Hone : tells v (cf_ftol cfg) sk i t1 [(ps_x s1, an)] out).
    { unfold tells. cbn [length seq map snd]. rewrite R2, Z.add_0_r. repeat match goal with |- _ /\ _ => split end; auto. intros Hv.
      destruct (R9 Hv) as (part & -> & Hs). apply (shows_weaken _ _ _ _ _ Hsk) in Hs. exists [LBlank], [part]. cbn. rewrite app_nil_r. repeat split; auto. repeat constructor. }
    destruct stop.
    { apply quiet_ok in H as [-> H]. injection H as <-. rewrite app_nil_r. eexists _, out. split; [exact R1|]. split; [exact R3|exact Hone]. }
    tq H lim E2. destruct lim.
    - tsay H t3. apply quiet_ok in H as [-> H]. injection H as <-. cbn [ps_res ps_out]. exists [(ps_x s1, an)], (out ++ [MExit1]).
      split; [exact R1|]. split; [rewrite R3, <- app_assoc; reflexivity|]. destruct Hone as (O1 & O2 & O3 & O4 & O5 & O6).
      unfold tells. rewrite app_nil_r, messages_app, writes_app, steps_app, increments_app, finals_app, heard_app, O1, O2, O3, O4, O5, !app_nil_r.
      repeat match goal with |- _ /\ _ => split end; auto.
      + unfold heard. destruct (0 <? v)%Z; reflexivity.
      + intros Hv. apply parts_more; [auto|]. repeat constructor.
    - apply IH in H as (recs & out2 & I1 & I2 & I3); [|intros [G1 G2]; auto]. exists ((ps_x s1, an) :: recs), (out ++ out2).
      split; [rewrite I1, R1, <- app_assoc; reflexivity|]. split; [rewrite I2, R3, <- app_assoc; reflexivity|].
      destruct Hone as (O1 & O2 & O3 & O4 & O5 & O6), I3 as (J1 & J2 & J3 & J4 & J5 & J6).
      unfold tells. rewrite messages_app, writes_app, steps_app, increments_app, finals_app, heard_app, O1, O2, O3, O4, O5, J1, J2, J3, J4, J5.
      repeat match goal with |- _ /\ _ => split end; auto.
      + unfold above_Z. destruct (0 <? v)%Z; [|reflexivity]. cbn [length seq map app]. f_equal. rewrite <- seq_shift, map_map.
        apply map_ext. intros n. lia.
      + unfold above_F. destruct (0 <? v)%Z; reflexivity.
      + intros Hv. change ((ps_x s1, an) :: recs) with ([(ps_x s1, an)] ++ recs). apply parts_cat; auto.
  Qed.

  Lemma pathfollow_text v g dg Ured an d j jpre cfg fuel t s :
    pathfollow_t argsortF solve v g dg Ured an d j jpre cfg fuel = (t, Ok s) ->
    exists recs, ps_res s = (Ured ++ [f0], an) :: recs /\ tells v (cf_ftol cfg) (jpre = true /\ cf_jfixed cfg = false) 1 t recs (ps_out s).
  Proof.
    unfold pathfollow_t. cbv zeta. intros H.
    assert (HH : forall k j0, increments_t argsortF solve v g dg cfg (expand_dxmax (length (Ured ++ [f0])) d) fuel k 1
        (Pf an (Ured ++ [f0]) j0 jpre (expand_dxmax (length (Ured ++ [f0])) d) 4%Z [(Ured ++ [f0], an)] []) = (t, Ok s) ->
      exists recs, ps_res s = (Ured ++ [f0], an) :: recs /\ tells v (cf_ftol cfg) (jpre = true /\ cf_jfixed cfg = false) 1 t recs (ps_out s)).
    { intros k j0 Hi. apply (increments_text _ _ _ _ _ _ (jpre = true /\ cf_jfixed cfg = false)) in Hi as (recs & out & I1 & I2 & I3); [|auto]. cbn [ps_res ps_out app] in *. exists recs. subst out. auto. }
    destruct (negb _); [eauto|]. destruct j as [j|]; [eauto|]. destruct (_ <=? 0)%Z; [|discriminate].
    apply quiet_ok in H as [-> H]. injection H as <-. exists []. split; [reflexivity|apply tells_nil].
  Qed.

  Lemma writes_facts n (ls : list F) : forall i, writes_in (writes i n ls) = map (fun p => (fst p, n, snd p)) (combine (seq i (length ls)) ls).
  Proof. induction ls as [|l ls IH]; intros i; [reflexivity|]. cbn. unfold writes_in in IH. now rewrite IH. Qed.
  Lemma writes_calm n (ls : list F) : forall i, Forall calm (writes i n ls).
  Proof. induction ls as [|l ls IH]; intros i; [constructor|]. constructor; [exact I|apply IH]. Qed.
  Lemma writes_messages n (ls : list F) : forall i, messages_in (writes i n ls) = [] /\ steps_in (writes i n ls) = [].
  Proof. induction ls as [|l ls IH]; intros i; [auto|]. destruct (IH (S i)) as [E1 E2]. cbn. auto. Qed.

  Definition numbered (ls : list F) : list (nat * nat * F) :=
    map (fun p => (fst p, length ls, snd p)) (combine (seq 1 (length ls)) ls).

  Definition skips_of (st : settings F) : Prop := s_jpre st = true /\ s_jfixed st = false.
  (** The text of one step. *)
  Definition step_tells (v : Z) (ftol : F) (sk : Prop) (k : nat) (t : list L) (lg : step_log F) : Prop :=
    messages_in t = heard v (lg_out lg) /\
    writes_in t = (if (1 <? v)%Z then numbered (map a_lpf (lg_results lg)) else []) /\
    steps_in t = above_Z v [1 + Z.of_nat k]%Z /\
    increments_in t = above_Z v (map (fun n => 1 + Z.of_nat n)%Z (seq 0 (length (lg_recs lg)))) /\
    finals_in t = above_F v (map a_lpf (lg_results lg)) /\
    ((0 < v)%Z -> parts_of ftol sk t (lg_recs lg)).

  Lemma run_step_text c st rows nsteps fuel done w s k t s' :
    run_step_t argsortF solve c st rows nsteps fuel s k = (t, Ok s') ->
    r_R s = done ++ [w] ->
    exists lg, step_starts rows (r_lpf_end s) k (r_an s) (lg_start lg) /\
      step_ran argsortF solve c st fuel k lg /\
      r_lpf_end s' = r_lpf_end s ++ [lg_end (a_lpf w) lg] /\
      r_out s' = r_out s ++ lg_out lg /\
      (if Nat.ltb (k + 1) nsteps
       then r_an s' = handed_over (lg_final lg) /\
            exists w', r_R s' = (done ++ lg_results lg) ++ [w'] /\ a_lpf w' = lg_end (a_lpf w) lg
       else r_an s' = lg_final lg /\ r_R s' = done ++ lg_results lg) /\
      step_tells (s_log st) (pow10neg (s_ftol st)) (skips_of st) k t lg.
  Proof.
    intros H HR. unfold run_step_t in H. cbv zeta in H.
    tq H incs Hincs. tq H xl Hxl. tsay H t1. tq H fconst Hfc. tsay H t2. tq H f0red Hg.
    ts H pf tp t3 Hpf. tsay H t4. tq H lpf Hlpf. tsay H t5. apply quiet_ok in H as [-> H].
    assert (Han : step_setup rows k s = Ok (set_step (1 + Z.of_nat k)%Z (set_f0red f0red (set_forces (block k rows) (set_fconst fconst (r_an s)))))).
    { unfold step_setup. rewrite Hfc. cbn [bind]. rewrite Hg. reflexivity. }
    apply step_setup_ok in Han.
    set (an := set_step _ _) in *.
    assert (Hpf' := f_equal snd Hpf). rewrite pathfollow_same in Hpf'. cbn [snd] in Hpf'.
    change (pathfollow solve argsortF (equilibrium c) (stiffness c) (a_Ured an) an
      (DxVec [s_du st; s_dlpf st]) (s_j0 st) (s_jpre st) (pf_config st xl incs) fuel = Ok pf) in Hpf'.
    destruct (pathfollow_shape _ _ _ _ _ _ _ _ _ _ _ _ Hpf') as (recs0 & Hres0 & Hlast).
    apply pathfollow_text in Hpf as (recs & Hres & Htell). rewrite Hres in Hres0. injection Hres0 as <-.
    rewrite Hres, HR in H, Hlpf. cbn [tl] in H, Hlpf. rewrite write_results in H, Hlpf.
    rewrite app_assoc, copy_U_snoc in H, Hlpf. rewrite rev_app_distr in Hlpf. cbn [rev app a_lpf set_U0] in Hlpf. injection Hlpf as <-.
    exists (Log an recs (ps_out pf)).
    split; [exact Han|]. split.
    { exists incs, xl, pf. cbn [lg_start lg_recs lg_out]. split; [apply at_step_in; assumption|]. split; [|auto].
      apply at_step_in. destruct (s_xlimit st) as [|[|]]; [exact Hxl|discriminate|exact Hxl]. }
    assert (Hend : lg_end (a_lpf w) (Log an recs (ps_out pf)) = a_lpf (last (map snd recs) w))
      by apply lg_end_last.
    assert (Hfin : ps_an pf = lg_final (Log an recs (ps_out pf))).
    { unfold lg_final. cbn [lg_recs lg_start]. rewrite (last_snd recs [] (a_Ured an ++ [f0])).
      rewrite <- Hlast. reflexivity. }
    rewrite Hend.
    split; [destruct (Nat.ltb (k + 1) nsteps); injection H as <-; reflexivity|].
    split; [destruct (Nat.ltb (k + 1) nsteps); injection H as <-; reflexivity|].
    split.
    { destruct (Nat.ltb (k + 1) nsteps); injection H as <-; cbn [r_an r_R r_lpf_end r_out lg_out lg_results lg_recs].
      - split; [rewrite <- Hfin; reflexivity|]. eexists. split; reflexivity.
      - split; [assumption|]. apply removelast_last. }
    clear H. rewrite app_nil_r, Hres. cbn [tl].
    change (tells (s_log st) (pow10neg (s_ftol st)) (skips_of st) 1 tp (lg_recs (Log an recs (ps_out pf))) (lg_out (Log an recs (ps_out pf)))) in Htell.
    change (map snd recs) with (lg_results (Log an recs (ps_out pf))).
    set (lg := Log an recs (ps_out pf)) in *. clearbody lg. clear - Htell.
    set (v := s_log st) in *.
    destruct Htell as (T1 & T2 & T3 & T4 & T5 & T6).
    set (h1 := above v 0 [LStep (1 + Z.of_nat k)] ++ above v 1 [LHelp 1; LHelp 2; LHelp 3; LHelp 4; LHelp 5; LFormula]).
    set (h2 := if Nat.eqb k 0 then [] else _). set (e1 := above v 1 _). set (e2 := above v 0 [LEndStep _]).
    assert (Hn : length (lg_results lg) = length (map a_lpf (lg_results lg))) by now rewrite map_length.
    assert (Eh2 : Forall both h2 /\ Forall calm h2) by (unfold h2; destruct (Nat.eqb k 0); split; repeat constructor).
    assert (Ee2 : Forall both e2 /\ Forall calm e2) by (unfold e2, above; destruct (0 <? v)%Z; split; repeat constructor).
    assert (Ch1 : Forall calm h1) by (apply Forall_app; split; apply all_above; repeat constructor).
    assert (Ce1 : Forall calm e1).
    { apply all_above. do 3 (constructor; [exact I|]). apply writes_calm. }
    assert (Hp : forall u, Forall both u -> Forall plain u) by (intros u Hu; eapply Forall_impl; [|exact Hu]; now intros l [Hl _]).
    destruct (plain_proj _ (Hp _ (proj1 Eh2))) as (A1 & A2 & A3 & A4 & A5).
    destruct (plain_proj _ (Hp _ (proj1 Ee2))) as (B1 & B2 & B3 & B4 & B5).
    destruct (calm_facts _ Ch1) as (C1 & C2 & _). destruct (calm_facts _ Ce1) as (D1 & D2 & _).
    assert (M1 : messages_in h1 = [] /\ writes_in h1 = [] /\ steps_in h1 = above_Z v [1 + Z.of_nat k]%Z).
    { unfold h1, above, above_Z. destruct (0 <? v)%Z, (1 <? v)%Z; auto. }
    assert (M2 : messages_in e1 = [] /\ steps_in e1 = [] /\
      writes_in e1 = (if (1 <? v)%Z then numbered (map a_lpf (lg_results lg)) else [])).
    { unfold e1, above. destruct (1 <? v)%Z; [|auto]. destruct (writes_messages (length (lg_results lg)) (map a_lpf (lg_results lg)) 1) as [W1 W2].
      split; [exact W1|]. split; [exact W2|]. unfold numbered. rewrite <- Hn. cbn [writes_in flat_map app].
      pose proof (writes_facts (length (lg_results lg)) (map a_lpf (lg_results lg)) 1) as Hw. rewrite <- Hn in Hw. exact Hw. }
    destruct M1 as (M11 & M12 & M13), M2 as (M21 & M22 & M23).
    unfold step_tells. rewrite !messages_app, !writes_app, !steps_app, !increments_app, !finals_app.
    rewrite A1, A2, A3, A4, A5, B1, B2, B3, B4, B5, C1, C2, D1, D2, M11, M12, M13, M21, M22, M23, T1, T2, T3, T4, T5. cbn [app]. rewrite !app_nil_r.
    repeat match goal with |- _ /\ _ => split end; auto.
    - unfold lg_results. rewrite map_map. reflexivity.
    - intros Hv. rewrite !app_assoc. apply parts_more; [|apply Ee2]. apply parts_more; [|exact Ce1].
      change (lg_recs lg) with ([] ++ lg_recs lg). apply parts_cat; [|auto]. apply parts_calm. apply Forall_app. split; [exact Ch1|apply Eh2].
  Qed.

  (** All steps and the whole run. *)
  Definition run_tells (v : Z) (ftol : F) (sk : Prop) (k : nat) (t : list L) (logs : list (step_log F)) : Prop :=
    messages_in t = heard v (concat (map lg_out logs)) /\
    writes_in t = (if (1 <? v)%Z then concat (map (fun lg => numbered (map a_lpf (lg_results lg))) logs) else []) /\
    steps_in t = above_Z v (map (fun n => 1 + Z.of_nat n)%Z (seq k (length logs))) /\
    increments_in t = above_Z v (concat (map (fun lg => map (fun n => 1 + Z.of_nat n)%Z (seq 0 (length (lg_recs lg)))) logs)) /\
    finals_in t = above_F v (map a_lpf (concat (map lg_results logs))) /\
    ((0 < v)%Z -> parts_of ftol sk t (concat (map lg_recs logs))).
  Lemma run_tells_one v ftol sk k t lg : step_tells v ftol sk k t lg -> run_tells v ftol sk k t [lg].
  Proof.
    intros (H1 & H2 & H3 & H4 & H5 & H6). unfold run_tells. cbn [map concat length seq]. rewrite !app_nil_r.
    repeat match goal with |- _ /\ _ => split end; auto. 
  Qed.
  Lemma run_tells_cons v ftol sk k t lg t' logs : step_tells v ftol sk k t lg -> run_tells v ftol sk (S k) t' logs ->
    run_tells v ftol sk k (t ++ t') (lg :: logs).
  Proof.
    intros (H1 & H2 & H3 & H4 & H5 & H6) (G1 & G2 & G3 & G4 & G5 & G6). unfold run_tells. cbn [map concat length seq].
    rewrite messages_app, writes_app, steps_app, increments_app, finals_app, H1, H2, H3, H4, H5, G1, G2, G3, G4, G5, heard_app, !map_app.
    repeat match goal with |- _ /\ _ => split end; auto.
    - destruct (1 <? v)%Z; reflexivity.
    - unfold above_Z. destruct (0 <? v)%Z; reflexivity.
    - unfold above_Z. destruct (0 <? v)%Z; reflexivity.
    - unfold above_F. destruct (0 <? v)%Z; reflexivity.
    - intros Hv. apply parts_cat; auto.
  Qed.

  Lemma run_steps_text c st rows nsteps fuel : forall n k s t s' done w,
    (k + n = nsteps)%nat -> (0 < n)%nat ->
    foldT (run_step_t argsortF solve c st rows nsteps fuel) (seq k n) s = (t, Ok s') ->
    r_R s = done ++ [w] ->
    exists logs, length logs = n /\
      steps_from argsortF solve c st rows fuel k (r_an s) (r_lpf_end s) (a_lpf w) logs /\
      r_R s' = done ++ concat (map lg_results logs) /\
      r_lpf_end s' = r_lpf_end s ++ ends (a_lpf w) logs /\
      r_out s' = r_out s ++ concat (map lg_out logs) /\
      (forall d, r_an s' = lg_final (last logs d)) /\
      run_tells (s_log st) (pow10neg (s_ftol st)) (skips_of st) k t logs.
  Proof.
    induction n as [|n IH]; intros k s t s' done w Hk Hn H HR; [lia|].
    cbn [seq foldT] in H. ts H s1 t1 t2 H1.
    destruct (run_step_text _ _ _ _ _ _ _ _ _ _ _ H1 HR) as (lg & Hst & Hran & Hlp & Hout & Hc & Ht1).
    destruct (Nat.ltb_spec (k + 1) nsteps) as [L0|L0].
    - destruct Hc as (Han & w' & HR1 & Hw').
      destruct (IH (S k) s1 _ s' _ w' ltac:(lia) ltac:(lia) H HR1)
        as (logs & Hlen & Hfrom & HR' & Hlp' & Hout' & Hfin & Ht2).
      exists (lg :: logs). rewrite Han, Hlp, Hw' in Hfrom. rewrite Hw' in Hlp'.
      split; [cbn [length]; lia|]. split; [cbn [steps_from]; auto|].
      split; [cbn [map concat]; rewrite HR', <- app_assoc; reflexivity|].
      split; [cbn [ends]; rewrite Hlp', Hlp, <- app_assoc; reflexivity|].
      split; [cbn [map concat]; rewrite Hout', Hout, <- app_assoc; reflexivity|].
      split; [intros d; rewrite (Hfin d); destruct logs; [cbn in Hlen; lia|reflexivity]|].
      now apply run_tells_cons.
    - assert (n = 0)%nat as -> by lia. cbn [seq foldT] in H. apply quiet_ok in H as [-> H]. injection H as <-. destruct Hc as [Han HR1].
      exists [lg]. rewrite app_nil_r. split; [reflexivity|]. split; [cbn [steps_from]; auto|]. cbn [map concat ends last]. rewrite !app_nil_r.
      split; [exact HR1|]. split; [exact Hlp|]. split; [exact Hout|]. split; [auto|now apply run_tells_one].
  Qed.

  Lemma parameters_plain (st : settings F) : all both (parameters st).
  Proof.
    unfold parameters. destruct (1 <? s_log st)%Z; [|constructor]. apply all_bind; [repeat constructor|]. intros _.
    destruct (s_j0 st); [apply all_quiet|]. apply all_bind; [repeat constructor|]. intros _. apply all_bind; [|repeat constructor].
    destruct (s_stepcontrol st); [|constructor]. apply all_bind; [repeat constructor|]. intros _.
    destruct (feqb _ _); [apply all_quiet|]. repeat constructor.
  Qed.

  Lemma run_text m fuel t m' out :
    run_t argsortF solve m fuel = (t, Ok (m', out)) -> (0 < s_nsteps (m_set m))%Z ->
    exists logs, ran_as argsortF solve m fuel m' out logs /\
      run_tells (s_log (m_set m)) (pow10neg (s_ftol (m_set m))) (skips_of (m_set m)) 0 t logs.
  Proof.
    intros H Hns. assert (Hrun := f_equal snd H). rewrite run_same in Hrun. cbn [snd] in Hrun.
    unfold run_t in H. cbv zeta in H. ts H [] tp t2 Ep.
    assert (Hp : Forall both tp). { pose proof (parameters_plain (m_set m)) as Hp. rewrite Ep in Hp. exact Hp. }
    destruct (m_built m) as [u|] eqn:Eu; [|discriminate].
    destruct (m_nodes m) as [nh|] eqn:En; [|discriminate].
    destruct (m_elems m) as [eh|] eqn:Ee; [|discriminate].
    destruct (m_forces m) as [fh|] eqn:Ef; [|discriminate].
    destruct (u_R u) as [|r0 rest] eqn:ER; [discriminate|].
    ts H s t3 t4 Hs. tsay H t5. apply quiet_ok in H as [-> H]. injection H as <- <-.
    assert (HR : r0 :: r0 :: rest = (r0 :: removelast (r0 :: rest)) ++ [last (r0 :: rest) r0]).
    { cbn [app]. f_equal. apply app_removelast_last. discriminate. }
    destruct (run_steps_text _ _ _ _ _ (Z.to_nat (s_nsteps (m_set m))) 0%nat _ _ _ _ _ eq_refl ltac:(lia) Hs HR)
        as (logs & Hlen & Hfrom & HR' & Hlp & Hout & Hfin & Ht).
    exists logs. cbn [r_an r_lpf_end r_out] in *. split.
    - split; [exact Hrun|]. split; [lia|]. split; [intros ->; cbn in Hlen; lia|].
      exists u, nh, eh, fh, r0, rest. eexists. rewrite ER. cbn [m_built]. do 5 (split; [eauto|]). split; [reflexivity|].
      repeat match goal with |- _ /\ _ => split end; assumption.
    - set (e := above _ _ _). rewrite app_nil_r. assert (He : Forall both e /\ Forall calm e).
      { unfold e, above. destruct (1 <? _)%Z; split; repeat constructor. }
      assert (Hpl : forall u, Forall both u -> Forall plain u) by (intros u0 Hu; eapply Forall_impl; [|exact Hu]; now intros l [Hl _]).
      assert (Hcl : Forall calm tp). { eapply Forall_impl; [|exact Hp]. intros l [H1 H2]. destruct l; cbn in *; auto. }
      destruct (plain_proj _ (Hpl _ Hp)) as (A1 & A2 & A3 & A4 & A5).
      destruct (plain_proj _ (Hpl _ (proj1 He))) as (B1 & B2 & B3 & B4 & B5).
      destruct Ht as (T1 & T2 & T3 & T4 & T5 & T6). unfold run_tells.
      rewrite !messages_app, !writes_app, !steps_app, !increments_app, !finals_app.
      rewrite A1, A2, A3, A4, A5, B1, B2, B3, B4, B5, !app_nil_r. cbn [app]. repeat match goal with |- _ /\ _ => split end; auto.
      intros Hv. change (concat (map lg_recs logs)) with ([] ++ concat (map lg_recs logs)). apply parts_cat; [now apply parts_calm|].
      apply parts_more; [auto|apply He].
  Qed.
End Props.

(** ** Runs without a log level *)
Section Quiet.
  Context {F : Type} `{NF : Num F}.
  Variable argsortF : list F -> list nat.
  Variable solve : list (list F) -> list F -> list F.
  Notation L := (line F).

  Definition paired {A} (m : told L A) : Prop := fst m = [] \/ messages_in (fst m) <> [].
  Lemma paired_bind {A B} (m : told L A) (k : A -> told L B) : paired m -> (forall a, paired (k a)) -> paired (tbind m k).
  Proof.
    intros H Hk. unfold paired in *. destruct m as [t [a| |]]; cbn [tbind fst snd] in *; [|exact H..].
    rewrite messages_app. destruct H as [->|H]; [apply Hk|]. right. intros E. apply app_eq_nil in E as [E _]. auto.
  Qed.
  Lemma paired_quiet {A} (r : res A) : paired (quiet r).
  Proof. now left. Qed.
  Lemma paired_above v k (l : list L) : (v <= k)%Z -> paired (say (above v k l)).
  Proof. intros H. left. cbn. apply above_off. exact H. Qed.
  Ltac pq := apply paired_bind; [first [apply paired_quiet|apply paired_above; lia|(left; reflexivity)]|].

  Lemma newton_paired {S : Type} v fn dfn ftol xtol : (v <= 0)%Z -> forall k n x prev (s : S),
    paired (newton_loop_t solve v fn dfn ftol xtol k n x prev s).
  Proof.
    intros Hv. induction k as [|k IH]; intros n x prev s; cbn [newton_loop_t]; [destruct prev as [[? ?]|]; apply paired_quiet|].
    pq; intros [s1 Km]. pq; intros [s2 fv]. cbv zeta. pq; intros x'. pq; intros [s3 fv']. pq; intros _.
    destruct (_ && _); [apply paired_quiet|apply IH].
  Qed.
  Lemma predict_paired v g dg cfg x dxmax j an : (v <= 0)%Z -> paired (predict_t argsortF solve v g dg cfg x dxmax j an).
  Proof.
    intros Hv. unfold predict_t. pq; intros xj. pq; intros dj. cbv zeta. apply paired_bind; [apply newton_paired; lia|].
    intros [an1 o]. pq; intros Dx. pq; intros [i1 v1]. pq; intros j'. pq; intros _. apply paired_quiet.
  Qed.
  Lemma recycle_paired v g dg cfg x0 dxmax0 pre fuel : (v <= 0)%Z -> cf_stepcontrol cfg = false -> forall s,
    paired (recycle_t argsortF solve v g dg cfg x0 dxmax0 pre fuel s).
  Proof.
    intros Hv Hc. induction fuel as [|fuel IH]; intros s; cbn [recycle_t]; [apply paired_quiet|].
    pq; intros _. cbv zeta. pq; intros xj. pq; intros dj. pq; intros xs. apply paired_bind; [apply newton_paired; lia|].
    intros [an1 o]. pq; intros Dx. pq; intros [i1 v1]. destruct (Nat.ltb _ 2); [apply paired_quiet|].
    destruct (ranked argsortF Dx (rc_dxmax s) 1) as [i2 v2]. destruct (if Nat.ltb 2 _ then _ else _) as [i3 v3].
    pq; intros _. pq; intros j. pq; intros q. pq; intros valid. rewrite Hc. pq; intros [[[dx' z'] b'] ch].
    destruct (valid && _); [pq; intros [? ?]; apply paired_quiet|].
    destruct (_ =? _)%Z; [apply paired_bind; [right; discriminate|intros; apply paired_quiet]|].
    destruct (_ && negb ch); [apply paired_bind; [right; discriminate|intros; apply paired_quiet]|].
    apply paired_bind; [right; discriminate|]. intros _. apply IH.
  Qed.
  Lemma increment_paired v g dg cfg dxmax0 fuel i s : (v <= 0)%Z -> cf_stepcontrol cfg = false ->
    paired (increment_t argsortF solve v g dg cfg dxmax0 fuel i s).
  Proof.
    intros Hv Hc. unfold increment_t. rewrite (above_off v 0), (above_off v 1) by lia. pq; intros _. cbv zeta. apply paired_bind.
    - destruct (_ && _).
      + apply paired_bind; [now apply predict_paired|]. intros p. destruct (pr_success p); [apply paired_quiet|].
        apply paired_bind; [now apply recycle_paired|]. intros [[r x] st]. apply paired_quiet.
      + apply paired_bind; [now apply recycle_paired|]. intros [[r x] st]. apply paired_quiet.
    - intros [s' stop]. pq; intros _. apply paired_quiet.
  Qed.
  Lemma increments_paired v g dg cfg dxmax0 fuel : (v <= 0)%Z -> cf_stepcontrol cfg = false -> forall k i s,
    paired (increments_t argsortF solve v g dg cfg dxmax0 fuel k i s).
  Proof.
    intros Hv Hc. induction k as [|k IH]; intros i s; cbn [increments_t]; [apply paired_quiet|].
    apply paired_bind; [now apply increment_paired|]. intros [s1 stop]. destruct stop; [apply paired_quiet|]. pq; intros lim. destruct lim; [|apply IH].
    apply paired_bind; [right; discriminate|]. intros _. apply paired_quiet.
  Qed.
  Lemma pathfollow_paired v g dg Ured an d j jpre cfg fuel : (v <= 0)%Z -> cf_stepcontrol cfg = false ->
    paired (pathfollow_t argsortF solve v g dg Ured an d j jpre cfg fuel).
  Proof.
    intros Hv Hc. unfold pathfollow_t. cbv zeta. destruct (negb _); [now apply increments_paired|].
    destruct j as [j|]; [now apply increments_paired|]. destruct (_ <=? 0)%Z; [apply paired_quiet|].
    left. cbn [fst]. rewrite !above_off by lia. reflexivity.
  Qed.
  Lemma run_step_paired c st rows nsteps fuel s : (s_log st <= 0)%Z -> s_stepcontrol st = false ->
    paired (run_step_t argsortF solve c st rows nsteps fuel s 0).
  Proof.
    intros Hv Hc. unfold run_step_t. cbv zeta. pq; intros incs. pq; intros xl. rewrite !(above_off _ 0), !(above_off _ 1) by lia.
    pq; intros _. pq; intros fc. cbn [Nat.eqb]. pq; intros _. pq; intros f0r. apply paired_bind; [now apply pathfollow_paired|].
    intros pf. apply paired_bind; [left; cbn; apply above_off; lia|]. intros _. pq; intros lp. pq; intros _. apply paired_quiet.
  Qed.
  Lemma run_paired m fuel : (s_log (m_set m) <= 0)%Z -> s_stepcontrol (m_set m) = false -> (s_nsteps (m_set m) <= 1)%Z ->
    paired (run_t argsortF solve m fuel).
  Proof.
    intros Hv Hc Hn. unfold run_t. cbv zeta. apply paired_bind.
    { unfold parameters. destruct (Z.ltb_spec 1 (s_log (m_set m))); [lia|]. left. reflexivity. }
    intros _. destruct (m_built m) as [u|]; [|apply paired_quiet]. destruct (m_nodes m); [|apply paired_quiet].
    destruct (m_elems m); [|apply paired_quiet]. destruct (m_forces m); [|apply paired_quiet]. destruct (u_R u); [apply paired_quiet|].
    apply paired_bind; [|intros s; pq; intros _; apply paired_quiet].
    assert (H : Z.to_nat (s_nsteps (m_set m)) = 0%nat \/ Z.to_nat (s_nsteps (m_set m)) = 1%nat) by lia.
    destruct H as [-> | ->]; cbn [seq foldT]; [apply paired_quiet|]. apply paired_bind; [now apply run_step_paired|]. intros; apply paired_quiet.
  Qed.
End Quiet.

(** ** Build at two log levels *)
Section BuildLevel.
  Context {F : Type} `{NF : Num F}.
  Variable argsortZ : list Z -> list nat.
  Lemma build_below v v' (m : model F) : (v <= v')%Z ->
    snd (build_t argsortZ (at_level v' m)) = (m' <- snd (build_t argsortZ (at_level v m)) ;; Ok (at_level v' m')) /\
    sub (fst (build_t argsortZ (at_level v m))) (fst (build_t argsortZ (at_level v' m))).
  Proof.
    intros Hv. unfold build_t. cbv zeta. cbn [at_level with_settings m_set m_built m_nodes m_elems m_forces m_bounds with_log s_log s_nstatev].
    destruct (m_nodes m) as [nh0|]; [|split; [reflexivity|constructor]]. destruct (m_elems m) as [eh|]; [|split; [reflexivity|constructor]].
    destruct (fix_nodes argsortZ (Some nh0)) as [[nh|]| |]; cbn [tbind quiet fst snd app bind]; try (split; [reflexivity|constructor]).
    destruct (fix_bounds_U argsortZ (m_bounds m) (n_labels nh)) as [ob| |]; cbn [tbind quiet fst snd app bind]; try (split; [reflexivity|constructor]).
    destruct (fix_forces argsortZ (m_forces m) (n_labels nh)) as [oe| |]; cbn [tbind quiet fst snd app bind]; try (split; [reflexivity|constructor]).
    destruct ob as [bh|]; [|split; [reflexivity|constructor]]. destruct oe as [fh|]; [|split; [reflexivity|constructor]].
    destruct (allclose (n_labels nh) (b_nodes bh)) as [c1| |]; cbn [tbind quiet fst snd app bind]; try (split; [reflexivity|constructor]).
    destruct (if c1 then allclose (n_labels nh) (e_nodes fh) else Ok false) as [c2| |]; cbn [tbind quiet fst snd app bind]; try (split; [reflexivity|constructor]).
    destruct (negb c2); [split; [reflexivity|constructor]|].
    destruct (dofs_with 0 _ _) as [D0| |]; cbn [tbind quiet fst snd app bind]; try (split; [reflexivity|constructor]).
    destruct (dofs_with 1 _ _) as [D1| |]; cbn [tbind quiet fst snd app bind]; try (split; [reflexivity|constructor]).
    cbn [tbind say fst snd].
    set (T := [LBlank; LSummary; _; _; _; _; _; _; _; _; _; _]).
    assert (HT : sub (above v 1 T) (above v' 1 T)).
    { unfold above. destruct (Z.ltb_spec 1 v), (Z.ltb_spec 1 v'); try lia; [apply sub_refl| |apply sub_refl].
      clearbody T. induction T; constructor; assumption. }
    destruct (analysis_build _ _ _ _ _) as [an| |]; cbn [tbind quiet fst snd app bind]; rewrite !app_nil_r; (split; [reflexivity|exact HT]).
  Qed.
End BuildLevel.
