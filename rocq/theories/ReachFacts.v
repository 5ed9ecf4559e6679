(** * Models reached by build and run *)
From Coq Require Import List ZArith Bool Arith Lia Permutation Sorting.Sorted.
Import ListNotations.
From Verif Require Import Num Vec Handlers Material Analysis Truss Equil Solver Run ListFacts SpecMech SpecBuild
  BuildFacts BuildProps EquilFacts SpecState FrameFacts EvalFacts SpecSolver SolverFacts PathFacts SpecRun RunFacts RecFacts.

Lemma vflat_zeros {F} `{NF : Num F} n : vflat (zeros3 n) = repeat f0 (3 * n).
Proof.
  unfold zeros3. induction n as [|n IH]; [reflexivity|]. replace (3 * S n) with (S (S (S (3 * n)))) by lia.
  cbn [repeat vflat flat_map]. unfold vflat in *. cbn [flat_map]. rewrite IH. reflexivity.
Qed.

Lemma nth_rep {A} (x : A) n k : k < n -> nth_error (repeat x n) k = Some x.
Proof. intros H. rewrite nth_error_repeat. destruct (Nat.ltb_spec k n); [reflexivity|lia]. Qed.

Lemma sorted_lt_NoDup (l : list nat) : StronglySorted lt l -> NoDup l.
Proof.
  induction 1 as [|a l Hs IH Hf]; constructor; auto. intros Hin. rewrite Forall_forall in Hf.
  apply Hf in Hin. lia.
Qed.

Section Reach.
  Context {F : Type} `{NF : Num F}.
  Variable argsortZ : list Z -> list nat.
  Variable argsortF : list F -> list nat.
  Variable solve : list (list F) -> list F -> list F.
  Implicit Types (c : ctx F) (a : analysis F).

  (** Every component of [U] outside the active DOFs is zero. *)
  Definition locked_zero a : Prop :=
    forall k, ~ In k (a_DOF1 a) -> k < 3 * length (a_U a) ->
      nth_error (vflat (a_U a)) k = Some f0 /\ nth_error (vflat (a_U0 a)) k = Some f0.

  (** What holds of every analysis object of a session. *)
  Definition reached c ms (D0 D1 : list nat) a : Prop :=
    sizes_ok c ms a /\ a_DOF0 a = D0 /\ a_DOF1 a = D1 /\ locked_zero a.

  Definition reached_len c a : Prop := 1 <= c_ndof1 c -> length (a_Ured a) = c_ndof1 c.

  Lemma same_locked a a' : same_setup a a' -> length (a_U a) = length (a_U0 a) -> locked_zero a -> locked_zero a'.
  Proof.
    intros (_ & _ & HD & _ & _ & _ & L1 & L2 & H1 & H2) _ Hz k Hk Hl. rewrite HD in Hk. rewrite L1 in Hl.
    rewrite H1, H2 by exact Hk. apply Hz; auto.
  Qed.

  Lemma reached_kind c ms D0 D1 cfg jp x0 a0 x a : truss_ok c ms ->
    reached c ms D0 D1 a0 -> kany solve c cfg jp x0 a0 x a -> reached c ms D0 D1 a.
  Proof.
    intros Hok (Hs & H0 & H1 & Hz) Hk. pose proof (kany_same _ _ _ _ _ _ _ _ Hk) as S.
    split; [eapply kany_sizes; eassumption|].
    pose proof S as (_ & S0 & S1 & _). split; [congruence|]. split; [congruence|].
    eapply same_locked; [exact S| |exact Hz]. destruct Hs as (A & B & _). congruence.
  Qed.

  (** A relation on analysis objects that keeps what [reached] speaks about. *)
  Lemma reached_setup c ms D0 D1 a a' : reached c ms D0 D1 a ->
    a_U a' = a_U a -> a_U0 a' = a_U0 a -> a_r a' = a_r a -> a_K a' = a_K a ->
    a_stretch a' = a_stretch a -> a_stress a' = a_stress a -> a_force a' = a_force a ->
    a_DOF0 a' = a_DOF0 a -> a_DOF1 a' = a_DOF1 a -> a_state a' = a_state a -> reached c ms D0 D1 a'.
  Proof.
    unfold reached, sizes_ok, locked_zero. intros H -> -> -> -> -> -> -> -> -> ->. exact H.
  Qed.

  Definition good_log c ms D0 D1 (lg : step_log F) : Prop :=
    reached c ms D0 D1 (lg_start lg) /\ reached_len c (lg_start lg) /\
    (forall x a, In (x, a) (lg_recs lg) -> reached c ms D0 D1 a /\ reached_len c a) /\
    reached c ms D0 D1 (lg_final lg) /\ reached_len c (lg_final lg).

  Lemma last_def {A} (l : list A) d d' : l <> [] -> last l d = last l d'.
  Proof.
    induction l as [|x l IH]; intros H; [congruence|]. destruct l as [|y l]; [reflexivity|].
    change (last (y :: l) d = last (y :: l) d'). apply IH. discriminate.
  Qed.

  Lemma step_good c ms D0 D1 st fuel k lg : truss_ok c ms ->
    reached c ms D0 D1 (lg_start lg) -> reached_len c (lg_start lg) ->
    step_ran argsortF solve c st fuel k lg -> good_log c ms D0 D1 lg.
  Proof.
    intros Hok Hr Hl H. apply step_any in H. destruct H as (incs & xl & H).
    eapply (along_impl _ (fun _ _ _ _ => True)
      (fun x a => reached c ms D0 D1 a /\ reached_len c a /\ (1 <= c_ndof1 c -> length x = S (c_ndof1 c)))) in H.
    - destruct H as (_ & Hin & Hlast). split; [exact Hr|]. split; [exact Hl|]. split; [|split].
      + intros x a Hx. destruct (Hin _ _ Hx) as (A & B & _). auto.
      + unfold lg_final. rewrite (last_snd _ _ (a_Ured (lg_start lg) ++ [f0])). apply Hlast.
      + unfold lg_final. rewrite (last_snd _ _ (a_Ured (lg_start lg) ++ [f0])). apply Hlast.
    - split; [exact Hr|]. split; [exact Hl|]. intros H1. rewrite app_length, (Hl H1). cbn. lia.
    - intros x0 a0 x a (Hr0 & Hl0 & Hx0) Hk. split; [|exact Logic.I].
      split; [eapply reached_kind; eassumption|].
      assert (Hx : 1 <= c_ndof1 c -> length x = S (c_ndof1 c)).
      { intros H1. specialize (Hx0 H1). rewrite (kany_length _ _ _ _ _ _ _ _ Hk); lia. }
      split; [|exact Hx]. intros H1. specialize (Hx H1).
      destruct (kany_recorded _ _ _ _ _ _ _ _ Hk) as (_ & -> & _).
      rewrite <- (firstn_removelast x _ Hx), firstn_length. lia.
  Qed.

  Lemma start_reached c ms D0 D1 rows lpfs k prev an :
    step_starts rows lpfs k prev an ->
    (reached c ms D0 D1 prev -> reached c ms D0 D1 an) /\ (reached_len c prev -> reached_len c an).
  Proof.
    intros (_ & _ & _ & _ & ->). split; [|auto]. intros H. eapply reached_setup; [exact H|..]; reflexivity.
  Qed.

  Lemma steps_good c ms D0 D1 st rows fuel : truss_ok c ms -> forall logs k prev lpfs pl,
    reached c ms D0 D1 prev -> reached_len c prev ->
    steps_from argsortF solve c st rows fuel k prev lpfs pl logs ->
    forall lg, In lg logs -> good_log c ms D0 D1 lg.
  Proof.
    intros Hok. induction logs as [|lg logs IH]; intros k prev lpfs pl Hr Hl H lg' Hin; cbn in *; [contradiction|].
    destruct H as (Hs & Hran & Hrest). destruct (start_reached c ms D0 D1 _ _ _ _ _ Hs) as [H1 H2].
    assert (Hg : good_log c ms D0 D1 lg) by (eapply step_good; eauto).
    destruct Hin as [<-|Hin]; [exact Hg|]. eapply IH; [| |exact Hrest|exact Hin].
    - eapply reached_setup; [apply Hg|..]; reflexivity.
    - apply Hg.
  Qed.

  (** ** After build *)
  Lemma build_reached m m' ns ms bs fs :
    argsort_ok argsortZ -> described m ns ms bs fs -> build argsortZ m = Ok m' ->
    exists nh eh fh u ns', m_nodes m' = Some nh /\ m_elems m' = Some eh /\ m_forces m' = Some fh /\
      m_built m' = Some u /\
      nodes_are (m_nodes m') ns' /\ Permutation ns' ns /\
      (forall fh0, m_forces m = Some fh0 -> e_width fh0 = e_width fh) /\
      forces_are (m_forces m') (rows_for fs (repeat f0 (e_width fh)) (map fst ns')) /\
      truss_ok (ctx_of m' u nh eh) ms /\
      (exists r0, u_R u = [r0] /\ a_Ured r0 = repeat f0 (u_ndof1 u) /\
         reached (ctx_of m' u nh eh) ms (a_DOF0 (u_an u)) (a_DOF1 (u_an u)) r0) /\
      u_lpf_end u = [] /\ u_nnodes u = length ns /\
      a_U (u_an u) = zeros3 (length ns) /\ a_U0 (u_an u) = zeros3 (length ns) /\ a_lpf (u_an u) = f0 /\
      a_Ured (u_an u) = repeat f0 (u_ndof1 u) /\
      reached (ctx_of m' u nh eh) ms (a_DOF0 (u_an u)) (a_DOF1 (u_an u)) (u_an u).
  Proof.
    intros HA (Hns & Hbs & Hfs & (eh0 & He & Hms) & H2 & Hnd & Hml & H3 & Hmem) H.
    destruct (build_tables _ _ _ _ _ _ HA Hns Hbs Hfs Hnd H2 H)
      as (Mb & Mf & ns' & w & Hns' & Hp & Hsort & Hb' & _ & Hw0 & Hw1 & Hf' & Hel).
    assert (Hlen : length ns' = length ns) by (apply Permutation_length, Hp).
    destruct (build_dofs _ _ _ _ HA H Hb') as (u & Eu & HD1 & HD0 & HS1 & _ & Hn1).
    { unfold rows_for. rewrite !map_length. lia. }
    { intros r Hr. unfold rows_for in Hr. rewrite map_map in Hr. apply in_map_iff in Hr. destruct Hr as (l & <- & _).
      cbn [snd]. destruct (in_dec Z.eq_dec l (map fst bs)) as [Hi|Hi].
      - apply in_map_iff in Hi. destruct Hi as ([l' v] & E & Hi). cbn in E. subst l'.
        rewrite (row_for_In bs _ l v (proj1 Mb) Hi). apply H3. apply in_map_iff. exists (l, v). auto.
      - rewrite row_for_notin by exact Hi. reflexivity. }
    destruct (build_inv _ _ _ H) as (nh0 & eh & nh & bh & fh & D0 & D1 & an & E1 & E2 & Ef & Eb & Eo & C1 & C2 & Hd0 & Hd1 & Han & Em).
    cbv zeta in *. assert (eh0 = eh) by congruence. subst eh0.
    assert (Lh0 : length (n_labels nh0) = length ns).
    { rewrite E1 in Hns. destruct Hns as [-> _]. apply map_length. }
    assert (Lel : length (el_labels eh) = length ms).
    { destruct Hms as (-> & _). apply map_length. }
    subst m'. cbn [m_nodes m_elems m_forces m_built m_set] in *. injection Eu as <-.
    unfold analysis_build in Han. apply bind_ok in Han. destruct Han as (ur & Hur & Han). injection Han as <-.
    cbn [u_an a_DOF0 a_DOF1 u_ndof1 u_R u_lpf_end u_nnodes a_U a_U0 a_lpf a_Ured] in *.
    rewrite Lh0, Lel in *.
    assert (Eur : ur = repeat f0 (length D1)).
    { rewrite vflat_zeros in Hur. apply gather_nth in Hur. destruct Hur as [Hl Hn].
      apply nth_error_ext. intros i. destruct (nth_error D1 i) as [k|] eqn:E.
      - destruct (Hn _ _ E) as [-> Hk]. rewrite repeat_length in Hk.
        transitivity (Some (f0 : F)); [apply nth_rep, Hk|]. symmetry. apply nth_rep. apply nth_error_Some. congruence.
      - apply nth_error_None in E. rewrite (proj2 (nth_error_None ur i)) by lia.
        symmetry. apply nth_error_None. rewrite repeat_length. exact E. }
    assert (Hlab : n_labels nh = map fst ns') by apply Hns'.
    assert (Hco : n_coords nh = map snd ns') by apply Hns'.
    assert (Hin : forall l, In l (map fst ns) -> In l (map fst ns')).
    { intros l. apply Permutation_in, Permutation_map, Permutation_sym, Hp. }
    exists nh, eh, fh. eexists. exists ns'.
    do 4 (split; [reflexivity|]).
    match goal with |- context [ctx_of ?M ?U] => set (mm := M); set (u := U) end.
    assert (Htr : truss_ok (ctx_of mm u nh eh) ms).
    { unfold truss_ok, ctx_of. cbn [c_labels c_coords c_elems]. rewrite Hlab, Hco, !map_length.
      split; [eapply Permutation_NoDup; [apply Permutation_map, Permutation_sym, Hp|exact Hnd]|].
      split; [reflexivity|]. split; [exact Hms|]. split; [exact Hml|].
      intros b Hb. destruct (Hmem b Hb) as (A & B & C). auto. }
    assert (Hre : forall a, a_U a = zeros3 (length ns) -> a_U0 a = zeros3 (length ns) -> a_r a = zeros3 (length ns) ->
              a_K a = zerosK (length ns) -> a_stretch a = repeat f0 (length ms) -> a_stress a = repeat f0 (length ms) ->
              a_force a = repeat f0 (length ms) -> a_DOF0 a = D0 -> a_DOF1 a = D1 ->
              a_state a = (if (0 <? (if existsb (Z.eqb 2) (el_mtype eh) then 2 else s_nstatev (m_set m)))%Z
                 then Some (repeat (repeat f0 (Z.to_nat (if existsb (Z.eqb 2) (el_mtype eh) then 2 else s_nstatev (m_set m)))) (length ms)) else None) ->
              reached (ctx_of mm u nh eh) ms D0 D1 a).
    { intros a QU QU0 Qr QK Qst Qss Qf Q0 Q1 Qs. unfold reached, sizes_ok, locked_zero. rewrite QU, QU0, Qr, QK, Qst, Qss, Qf. split; [|split; [exact Q0|split; [exact Q1|]]].
      - unfold ctx_of, zerosK, zeros3. cbn [c_labels c_ndof1 c_nstatev].
        rewrite Hlab, map_length, Hlen, !repeat_length, Q1.
        do 4 (split; [reflexivity|]). split.
        { intros row Hr. apply repeat_spec in Hr. subst row. apply repeat_length. }
        do 3 (split; [reflexivity|]). split; [apply sorted_lt_NoDup, HS1|]. split.
        { intros k Hk. apply HD1 in Hk. destruct Hk as (r & Hr & _).
          assert (k / 3 < length ns).
          { assert (Hx : nth_error (map snd (rows_for bs [1; 1; 1]%Z (map fst ns'))) (k / 3) <> None) by congruence.
            apply nth_error_Some in Hx. unfold rows_for in Hx. rewrite !map_length in Hx. lia. }
          pose proof (Nat.div_mod k 3 ltac:(lia)). pose proof (Nat.mod_upper_bound k 3 ltac:(lia)). lia. }
        split; [reflexivity|]. intros Hpos. subst mm. cbn [m_set with_nstatev s_nstatev] in Hpos.
        rewrite Qs. destruct (Z.ltb_spec 0 (if existsb (Z.eqb 2) (el_mtype eh) then 2 else s_nstatev (m_set m))); [|lia].
        eexists. split; [reflexivity|]. apply repeat_length.
      - intros k Hk. rewrite Q1 in Hk. unfold zeros3 at 1. rewrite repeat_length. intros Hl.
        rewrite vflat_zeros. rewrite nth_rep by exact Hl. auto. }
    split; [exact Hns'|]. split; [exact Hp|].
    specialize (Hw1 fh eq_refl).
    split; [intros fh0 E; rewrite Hw1; apply Hw0, E|]. split; [rewrite Hw1; exact Hf'|].
    split; [exact Htr|]. split.
    { eexists. cbn [u_R u_ndof1 u_an a_DOF0 a_DOF1]. split; [reflexivity|]. split; [exact Eur|]. apply Hre; reflexivity. }
    do 5 (split; [reflexivity|]). split; [exact Eur|]. apply Hre; reflexivity.
  Qed.
End Reach.
