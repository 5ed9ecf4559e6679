(** * Where the stiffness stored with a result was evaluated *)
From Coq Require Import List ZArith Bool Arith Lia.
Import ListNotations.
From Verif Require Import Num Vec Handlers Material Analysis Truss Equil Solver Run ListFacts SpecMech EquilFacts
  SpecState FrameFacts EvalFacts SpecSolver SolverFacts PathFacts StepFacts SpecRun RunFacts RecFacts ReachFacts
  SpecBuild RunProps StiffFacts SpecTangent.

Lemma trace_last {F} `{NF : Num F} {S} solve (fn : list F -> S -> res (S * list F)) dfn (P : S -> Prop) :
  (forall x s s' v, P s -> fn x s = Ok (s', v) -> P s') ->
  (forall x s s' K, P s -> dfn x s = Ok (s', K) -> P s') ->
  forall ts x s t, P s -> trace solve fn dfn x s (ts ++ [t]) ->
  exists y s0 s1 Km s2 fv, P s0 /\ dfn y s0 = Ok (s1, Km) /\ fn y s1 = Ok (s2, fv) /\
    bcast2 fadd y (it_dx t) = Ok (it_x t) /\ fn (it_x t) s2 = Ok (it_s t, it_f t) /\ (ts = [] -> y = x).
Proof.
  intros Hf Hd. induction ts as [|u ts IH]; intros x s t Hp H; inversion H as [|? ? ? ? Hi Hr]; subst;
    destruct Hi as (s1 & Km & s2 & fv & H1 & H2 & _ & H4 & E).
  - exists x, s, s1, Km, s2, fv. auto 10.
  - destruct (IH (it_x u) (it_s u) t) as (y & s0 & s1' & Km' & s2' & fv' & Q); [eauto|exact Hr|].
    exists y, s0, s1', Km', s2', fv'. destruct Q as (Q1 & Q2 & Q3 & Q4 & Q5 & _). repeat split; auto. discriminate.
Qed.

Section Tan.
  Context {F : Type} `{NF : Num F}.
  Variable argsortZ : list Z -> list nat.
  Variable argsortF : list F -> list nat.
  Variable solve : list (list F) -> list F -> list F.
  Implicit Types (c : ctx F) (a : analysis F).

  Definition mats (a : analysis F) := (a_K a, a_Kred a, a_Kmod a, a_f0red a).

  Lemma f_ext_mats c x0 j xm w x a a' v : f_ext (equilibrium c) x0 j xm w x a = Ok (a', v) -> mats a' = mats a /\ a_j a' = j.
  Proof.
    intros H. unfold f_ext in H. apply bind_ok in H. destruct H as ([a1 gr] & Hg & H).
    apply bind_ok in H. destruct H as (vj & _ & H). injection H as <- _.
    apply equilibrium_parts in Hg. destruct Hg as (U & U0 & a2 & _ & _ & Hl & _ & _ & ->).
    apply elem_loop_frame in Hl. destruct Hl as (Fx & _ & HK & _). unfold efix in Fx. cbn in *. specialize (HK eq_refl).
    unfold mats. cbn. destruct Fx as (_ & _ & _ & _ & _ & _ & _ & _ & E1 & E2 & E3 & E4 & _). now rewrite HK, E1, E2, E3, E4.
  Qed.

  Lemma select2_len (M : list (list F)) D N : select2 M D = Ok N ->
    length N = length D /\ forall r, In r N -> length r = length D.
  Proof.
    unfold select2. intros H. apply bind_ok in H. destruct H as (rows & Hr & H).
    pose proof (gather_length _ _ _ Hr) as L.
    assert (G : forall (l : list (list F)) acc N, foldM (fun acc row => r <- gather row D ;; Ok (acc ++ [r])) l acc = Ok N ->
      (forall r, In r acc -> length r = length D) -> length N = length acc + length l /\ forall r, In r N -> length r = length D).
    { induction l as [|r l IH]; intros acc N0 HN Ha; cbn [foldM] in HN.
      - injection HN as <-. cbn. split; [lia|exact Ha].
      - apply bind_ok in HN. destruct HN as (acc' & Hb & HN). apply bind_ok in Hb. destruct Hb as (r' & Hg & Hb). injection Hb as <-.
        apply IH in HN.
        + destruct HN as [HN1 HN2]. rewrite app_length in HN1. cbn in *. split; [lia|exact HN2].
        + intros q Hq. apply in_app_or in Hq. destruct Hq as [Hq|[<-|[]]]; [auto|]. eapply gather_length, Hg. }
    destruct (G _ _ _ H) as [G1 G2]; [intros r []|]. split; [cbn in G1; lia|exact G2].
  Qed.

  Lemma dfdx_parts c j y s s' Km : dfdx (stiffness c) j y s = Ok (s', Km) ->
    c_ndof1 c = length (a_DOF1 s) -> 1 <= c_ndof1 c ->
    exists b, stiffness c (removelast y) (set_j j s) = Ok (b, a_Kred s') /\ a_K s' = a_K b /\ a_U s' = a_U b /\
      length y = S (c_ndof1 c) /\ length (a_f0red s') = c_ndof1 c /\
      exists row, unit_row (length y) j row /\
        a_Kmod s' = map2 (fun r v => r ++ [fopp v]) (a_Kred s') (a_f0red s') ++ [row].
  Proof.
    intros H Hn H1. unfold dfdx in H. cbv zeta in H.
    apply bind_ok in H. destruct H as (qc & Hq & H).
    apply bind_ok in H. destruct H as ([b K] & HK & H).
    apply bind_ok in H. destruct H as (Kf & Hf & H).
    destruct (forallb _ Kf) eqn:Hlen; [|discriminate]. injection H as <- _.
    pose proof (stiffness_parts _ _ _ _ _ HK) as (U & U0 & a2 & _ & _ & Hl & Hs & Eb).
    assert (EK : a_Kred b = K) by (rewrite Eb; reflexivity).
    assert (ED : a_DOF1 a2 = a_DOF1 s).
    { apply elem_loop_frame in Hl. destruct Hl as (Fx & _). unfold efix in Fx. cbn in Fx. tauto. }
    rewrite ED in Hs. destruct (select2_len _ _ _ Hs) as [L1 L2].
    unfold hstack_col in Hf. rewrite map_length in Hf. destruct (Nat.eqb_spec (length K) (length (a_f0red b))) as [L|]; [|discriminate].
    injection Hf as <-.
    assert (Lq : length qc = length y).
    { unfold ctrl_row in Hq. apply bind_ok in Hq. destruct Hq as (p & _ & Hq). injection Hq as <-. rewrite set_nth_length. apply repeat_length. }
    assert (Ly : length y = S (c_ndof1 c)).
    { rewrite forallb_forall in Hlen. destruct K as [|r K]; [cbn in L1; lia|]. destruct (a_f0red b) as [|f fs]; [discriminate L|].
      cbn [map map2] in Hlen. specialize (Hlen _ (or_introl eq_refl)). apply Nat.eqb_eq in Hlen.
      rewrite app_length, (L2 r (or_introl eq_refl)) in Hlen. cbn in Hlen. lia. }
    exists b. cbn. rewrite EK. split; [exact HK|]. split; [reflexivity|]. split; [reflexivity|]. split; [exact Ly|]. split; [lia|].
    exists qc. split.
    - split; [exact Lq|]. intros k Hk. unfold ctrl_row in Hq. apply bind_ok in Hq. destruct Hq as (p & Hp & Hq). injection Hq as <-.
      assert (Ep : (Z.of_nat p + 1 = if Z.eqb j 0 then Z.of_nat (length y) else Z.abs j)%Z).
      { unfold py_pos in Hp. destruct (Z.leb_spec 0 (Z.abs j - 1)), (Z.ltb_spec (Z.abs j - 1) (Z.of_nat (length y)));
          cbn [andb] in Hp; try discriminate.
        - injection Hp as <-. destruct (Z.eqb_spec j 0); lia.
        - destruct (Z.leb_spec (- Z.of_nat (length y)) (Z.abs j - 1)), (Z.ltb_spec (Z.abs j - 1) 0); cbn [andb] in Hp;
            try discriminate; lia.
        - destruct (Z.leb_spec (- Z.of_nat (length y)) (Z.abs j - 1)), (Z.ltb_spec (Z.abs j - 1) 0); cbn [andb] in Hp;
            try discriminate. injection Hp as <-. destruct (Z.eqb_spec j 0); lia.
        - lia. }
      rewrite <- Ep. destruct (Z.eqb_spec (Z.of_nat k + 1) (Z.of_nat p + 1)) as [E|E].
      + assert (k = p) by lia. subst k. apply nth_error_nth, nth_error_set_nth_eq. rewrite repeat_length. exact Hk.
      + apply nth_error_nth. rewrite nth_error_set_nth_neq by lia. rewrite nth_error_repeat.
        destruct (Nat.ltb_spec k (length y)); [reflexivity|lia].
    - f_equal. clear. generalize (a_f0red b). induction K as [|r K IH]; intros [|f fs]; cbn; auto. now rewrite IH.
  Qed.

  (** The result of a converged correction. *)
  Lemma corr_stiff c cfg ms x0 j dxmax xmax xs nfev an ts t a0 :
    truss_ok c ms -> sizes_ok c ms a0 -> 1 <= c_ndof1 c -> length (it_x t) = S (c_ndof1 c) -> silent c a0 an ->
    corrector solve (equilibrium c) (stiffness c) cfg x0 j dxmax xmax xs nfev an ts t ->
    exists y b b', same_setup a0 b /\ a_state b = a_state a0 /\ sizes_ok c ms b /\ length y = S (c_ndof1 c) /\
      stiffness c (removelast y) b = Ok (b', a_Kred (it_s t)) /\ a_K (it_s t) = a_K b' /\
      bcast2 fadd y (it_dx t) = Ok (it_x t) /\ (ts = [] -> y = xs) /\
      (exists w s1 s2 fv, equilibrium c y x0 w s1 = Ok (s2, fv) /\ same_setup a0 s1 /\ sizes_ok c ms s1) /\
      a_j (it_s t) = j /\ extends (it_s t) (length y).
  Proof.
    intros Hok Hsz H1 Hx Hs (xj & dj & _ & _ & _ & Ht & _).
    pose proof (silent_quiet c) as Q.
    eapply (trace_last solve _ _ (silent c a0)) in Ht; [| | |exact Hs].
    - destruct Ht as (y & s0 & s1 & Km & s2 & fv & Hp & Hd & Hf & Hb & Hf2 & Hy).
      assert (Hp1 : silent c a0 s1) by (eapply (proj1 (proj2 Q)); [exact Hp|]; eapply dfdx_quiet; eassumption).
      assert (Hpj : silent c a0 (set_j j s0)).
      { eapply (proj1 (proj2 Q)); [exact Hp|]. apply (proj1 (proj2 (proj2 (proj2 (proj2 Q))))). }
      assert (Hpk : silent c a0 (set_j j s1)).
      { eapply (proj1 (proj2 Q)); [exact Hp1|]. apply (proj1 (proj2 (proj2 (proj2 (proj2 Q))))). }
      pose proof Hpj as (Sj & Tj & Zj). specialize (Zj ms Hok Hsz).
      destruct (dfdx_parts _ _ _ _ _ _ Hd) as (b & K1 & K2 & K3 & K4 & K5 & row & K6 & K7).
      { destruct Zj as (_ & _ & _ & _ & _ & _ & _ & _ & _ & _ & E & _). exact E. }
      { exact H1. }
      pose proof (f_ext_mats _ _ _ _ _ _ _ _ _ Hf) as [M1 _]. pose proof (f_ext_mats _ _ _ _ _ _ _ _ _ Hf2) as [M2 Mj].
      assert (M : mats (it_s t) = mats s1) by congruence. unfold mats in M. injection M as E1 E2 E3 E4.
      exists y, (set_j j s0), b. split; [exact Sj|]. split; [exact Tj|]. split; [exact Zj|]. split; [exact K4|].
      split; [rewrite E2; exact K1|]. split; [congruence|]. split; [exact Hb|]. split; [exact Hy|].
      split.
      { unfold f_ext in Hf. apply bind_ok in Hf. destruct Hf as ([s2' gr] & Hg & _).
        exists false, (set_j j s1), s2', gr. split; [exact Hg|]. destruct Hpk as (Sk & _ & Zk). split; [exact Sk|exact (Zk ms Hok Hsz)]. }
      split; [exact Mj|].
      exists row. rewrite Mj. split; [exact K6|]. congruence.
    - intros x s s' v Hp Hf. eapply (proj1 (proj2 Q)); [exact Hp|]. eapply f_ext_quiet; eassumption.
    - intros x s s' K Hp Hd. eapply (proj1 (proj2 Q)); [exact Hp|]. eapply dfdx_quiet; eassumption.
  Qed.

  Definition stiff_kind c ms tol x0 a0 x a : Prop :=
    exists y b b', stiffness_from c ms tol a0 x a y b b' /\ extends a (length x) /\
      (exists w s1 s2 fv, equilibrium c y x0 w s1 = Ok (s2, fv) /\ same_setup a0 s1 /\ sizes_ok c ms s1).

  Lemma kind_stiff c cfg ms jp x0 a0 x a :
    truss_ok c ms -> sizes_ok c ms a0 -> length x0 = S (c_ndof1 c) -> 1 <= c_ndof1 c ->
    kacc solve c cfg x0 a0 x a \/ kskp solve c cfg jp x0 a0 x a ->
    stiff_kind c ms (cf_xtol cfg) x0 a0 x a.
  Proof.
    intros Hok Hsz Hx0 H1 H.
    assert (Hlx : length x = S (c_ndof1 c)).
    { assert (Hka : kany solve c cfg jp x0 a0 x a) by (unfold kany; tauto). rewrite (kany_length _ _ _ _ _ _ _ _ Hka); lia. }
    destruct H as [H|H].
    - destruct H as (j & dxmax & xmax & xs & nfev & an & ts & t & an2 & v & _ & _ & San & St & Hc & Hcv & Hxt & _ & _ & Hf & ->).
      eapply corr_stiff in Hc; [|exact Hok|exact Hsz|exact H1|congruence|exact San].
      destruct Hc as (y & b & b' & C1 & C2 & C3 & C4 & C5 & C6 & C7 & _ & C8 & C9 & row & C10 & C11).
      pose proof (f_ext_mats _ _ _ _ _ _ _ _ _ Hf) as [M Mj]. unfold mats in M. cbn in M. injection M as E1 E2 E3 E4.
      exists y, b, b'. split; [|split; [|exact C8]].
      + split; [exact C1|]. split; [exact C2|]. split; [exact C3|]. split; [congruence|].
        split; [cbn; rewrite E2; exact C5|]. split; [cbn; congruence|].
        exists (it_dx t). unfold converged in Hcv. apply andb_true_iff in Hcv. split; [apply Hcv|]. right. congruence.
      + exists row. cbn. rewrite Mj, Hlx, <- C4, <- C9, E2, E3, E4. split; [exact C10|exact C11].
    - destruct H as (_ & _ & j & dxmax & xmax & an & t & _ & San & St & Hc & Hcv & -> & ->).
      assert (Lt : length (it_x t) = S (c_ndof1 c)).
      { destruct Hc as (xj & dj & _ & _ & _ & Ht & _). cbn in Ht. inversion Ht as [|? ? ? ? Hi _]; subst.
        destruct Hi as (s1 & Km & s2 & fv & _ & _ & _ & Hb & _). apply bcast2_length_l in Hb; lia. }
      eapply corr_stiff in Hc; [|exact Hok|exact Hsz|exact H1|exact Lt|exact San].
      destruct Hc as (y & b & b' & C1 & C2 & C3 & C4 & C5 & C6 & C7 & Cy & C8 & C9 & row & C10 & C11).
      specialize (Cy eq_refl). subst y.
      exists x0, b, b'. split; [|split; [|exact C8]].
      + split; [exact C1|]. split; [exact C2|]. split; [exact C3|]. split; [congruence|].
        split; [exact C5|]. split; [exact C6|].
        exists (it_dx t). unfold converged in Hcv. apply andb_true_iff in Hcv. split; [apply Hcv|]. left. reflexivity.
      + exists row. cbn. split; [exact C10|exact C11].
  Qed.

  Lemma records_stiff P m ns ms bs fs m1 fuel m2 out logs :
    argsort_ok argsortZ -> described m ns ms bs fs -> session argsortF solve argsortZ P m m1 ->
    ran_as argsortF solve m1 fuel m2 out logs ->
    (forall u, m_built m1 = Some u -> 1 <= u_ndof1 u) ->
    exists u1 nh eh, m_built m1 = Some u1 /\ m_nodes m1 = Some nh /\ m_elems m1 = Some eh /\
    truss_ok (ctx_of m1 u1 nh eh) ms /\ 2 <= length (c_labels (ctx_of m1 u1 nh eh)) /\
    forall lg, In lg logs -> exists recs, good_part lg recs /\
      along (fun x0 a0 x a => loads_shape a0 /\ length x = S (u_ndof1 u1) /\ length x0 = S (u_ndof1 u1) /\
               sizes_ok (ctx_of m1 u1 nh eh) ms a0 /\
               stiff_kind (ctx_of m1 u1 nh eh) ms (pow10neg (s_xtol (m_set m1))) x0 a0 x a)
            (a_Ured (lg_start lg) ++ [f0]) (lg_start lg) recs.
  Proof.
    intros HA Hd HS Hran H1.
    destruct (session_logs _ _ _ _ _ _ _ _ _ _ _ _ _ _ HA Hd HS Hran)
      as (c & D0 & D1 & w & u1 & Htr & Hlab & Eu & Hnd & _ & (nh & eh & En & Ee & ->) & _ & fh & _ & _ & _ & Hlogs).
    exists u1, nh, eh. do 5 (split; [assumption|]). set (c := ctx_of m1 u1 nh eh) in *. intros lg Hin.
    specialize (H1 _ Eu). apply In_nth_error in Hin. destruct Hin as [k Hk].
    destruct (Hlogs _ _ Hk) as ((Hr & Hl & Hrecs & _) & Hrn & Hsh & _).
    destruct (step_kinds _ _ _ _ _ _ _ Hrn) as (incs & xl & recs & Hg & Hal & _). cbv zeta in *.
    exists recs. split; [exact Hg|].
    eapply (along_impl _ _ (fun x a => reached c ms D0 D1 a /\ length x = S (c_ndof1 c) /\ loads_shape a)) in Hal.
    - apply Hal.
    - split; [exact Hr|]. split; [rewrite app_length, (Hl ltac:(lia)); cbn; lia|exact Hsh].
    - intros x0 a0 x a (Hr0 & Hx0 & Hs0) Hk2.
      assert (Hka : kany solve c (pf_config (m_set m1) xl incs) (s_jpre (m_set m1)) x0 a0 x a) by (unfold kany; tauto).
      assert (Hx : length x = S (c_ndof1 c)) by (rewrite (kany_length _ _ _ _ _ _ _ _ Hka); lia).
      split.
      + split; [eapply reached_kind; eassumption|]. split; [exact Hx|].
        eapply shape_same; [eapply kany_same, Hka|exact Hs0].
      + split; [exact Hs0|]. split; [rewrite <- Hnd; exact Hx|]. split; [rewrite <- Hnd; exact Hx0|].
        split; [apply Hr0|].
        refine (kind_stiff c _ ms (s_jpre (m_set m1)) x0 a0 x a Htr _ Hx0 _ Hk2); [apply Hr0|lia].
  Qed.
End Tan.
