(** * Lemmas behind: a run of a complete model returns *)
From Coq Require Import List ZArith Bool Arith Lia Permutation.
Import ListNotations.
From Verif Require Import Num Vec Handlers Material Analysis Truss Equil Solver Run ListFacts SpecMech SpecBuild BuildFacts
  EquilFacts SpecState FrameFacts EvalFacts SpecSolver SolverFacts SpecRun RunFacts RecFacts ReachFacts SessionFacts SpecValid.
From Verif Require SplitFacts.

Lemma py_pos_in n i : (- Z.of_nat n <= i < Z.of_nat n)%Z -> exists p, py_pos n i = Ok p /\ p < n.
Proof.
  intros H. unfold py_pos. destruct (Z.leb_spec 0 i); cbn [andb].
  - destruct (Z.ltb_spec i (Z.of_nat n)); [|lia]. eexists. split; [reflexivity|lia].
  - destruct (Z.leb_spec (- Z.of_nat n) i); [|lia]. cbn [andb]. destruct (Z.ltb_spec i 0); [|lia]. eexists. split; [reflexivity|lia].
Qed.

Lemma py_get_in {A} (l : list A) i : (- Z.of_nat (length l) <= i < Z.of_nat (length l))%Z -> exists x, py_get l i = Ok x.
Proof.
  intros H. destruct (py_pos_in _ _ H) as (p & E & Hp). unfold py_get. rewrite E. cbn [bind].
  destruct (nth_error l p) eqn:En; [eauto|]. apply nth_error_None in En. lia.
Qed.

Section Total.
  Context {F : Type} `{NF : Num F}.
  Implicit Types (c : ctx F) (a : analysis F).

  (** ** Dimensions *)
  Lemma gflat_K_dims n (K : list (list (m3 F))) : kdims n K -> length (flat_K K) = 3 * n /\
    forall row, In row (flat_K K) -> length row = 3 * n.
  Proof.
    intros [Hl Hr]. split.
    - rewrite <- Hl. clear. unfold flat_K. induction K as [|r K IH]; [reflexivity|]. cbn [flat_map]. rewrite app_length, IH. cbn. lia.
    - intros row Hin. unfold flat_K in Hin. apply in_flat_map in Hin. destruct Hin as (r & Hr0 & Hin). apply Hr in Hr0.
      assert (G : forall f : m3 F -> v3 F, length (flat_map (fun b => vlist (f b)) r) = 3 * length r).
      { intros f. clear. induction r as [|b r IH]; [reflexivity|]. cbn [flat_map]. rewrite app_length, IH. cbn. lia. }
      destruct Hin as [<- | [<- | [<- | []]]]; rewrite G; unfold m3 in *; lia.
  Qed.

  Lemma gselect2_total n (M : list (list F)) ix : length M = n -> (forall row, In row M -> length row = n) ->
    (forall k, In k ix -> k < n) -> exists res, select2 M ix = Ok res /\ length res = length ix /\ forall row, In row res -> length row = length ix.
  Proof.
    intros HM Hr Hk. unfold select2. destruct (gather_ok M ix) as [rows Hrows]; [intros; rewrite HM; auto|].
    rewrite Hrows. cbn [bind]. destruct (gather_nth _ _ _ Hrows) as [Hl Hn].
    assert (Hin : forall row, In row rows -> length row = n).
    { intros row Hin. apply In_nth_error in Hin. destruct Hin as [i Hi]. destruct (nth_error ix i) as [p|] eqn:E.
      - destruct (Hn _ _ E) as [H1 _]. rewrite Hi in H1. symmetry in H1. apply nth_error_In in H1. auto.
      - apply nth_error_None in E. assert (i < length rows) by (apply nth_error_Some; congruence). lia. }
    clear Hrows Hn.
    assert (G : forall acc, (forall row, In row acc -> length row = length ix) ->
      exists res, foldM (fun acc row => r <- gather row ix ;; Ok (acc ++ [r])) rows acc = Ok res /\ length res = length acc + length rows /\ forall row, In row res -> length row = length ix).
    { clear Hl. induction rows as [|row rows IH]; intros acc Ha; cbn [foldM].
      - exists acc. split; [reflexivity|]. split; [cbn; lia|exact Ha].
      - destruct (gather_ok row ix) as [r Hr']; [intros k Hk'; rewrite (Hin row); auto; left; auto|].
        rewrite Hr'. cbn [bind]. destruct (IH (fun row H => Hin row (or_intror H)) (acc ++ [r])) as (res & E & L & Hres).
        { intros x Hx. apply in_app_iff in Hx. destruct Hx as [Hx|[<- | []]]; [auto|]. apply gather_nth in Hr'. apply Hr'. }
        exists res. split; [exact E|]. split; [rewrite L, app_length; cbn; lia|exact Hres]. }
    destruct (G [] ltac:(intros ? [])) as (res & E & L & Hres). exists res. split; [exact E|]. split; [cbn in L; lia|exact Hres].
  Qed.

  (** ** Members *)
  Definition rows_ok c (ms : list (member F)) a : Prop :=
    forall k b, nth_error ms k = Some b -> mb_law b = UmatPl -> exists y p r, state_row c a k = Some (y :: p :: r).

  Lemma law_total (b : member F) e de row : complete b -> (mb_law b = UmatPl -> exists y p r, row = Some (y :: p :: r)) ->
    exists x, umat (mb_law b) e de (mb_mat b) row = Ok x.
  Proof.
    intros [_ H] Hr. destruct (mb_law b); cbn [umat].
    - unfold umat_el. destruct (mb_mat b) as [|E ?]; [contradiction|]. cbn. eauto.
    - destruct (Hr eq_refl) as (y & p & r & ->). destruct (mb_mat b) as [|E [|K [|Sy rest]]]; cbn in H; try lia.
      unfold umat_elplast_iso. cbn [item nth_error bind]. destruct (fleb _ _); eauto.
  Qed.

  Lemma member_total c U U0 row (b : member F) : complete b -> (mb_law b = UmatPl -> exists y p r, row = Some (y :: p :: r)) ->
    exists q, member_q c U U0 row b = Ok q.
  Proof.
    intros Hc Hr. unfold member_q, truss_quantities. cbv zeta.
    match goal with |- context [umat ?u ?e ?de ?mp ?s] => destruct (law_total b e de row Hc Hr) as [[[s1 d1] t1] ->] end. cbn [bind].
    destruct Hc as [Hg _]. destruct (mb_geo b) as [|A ?]; [contradiction|]. cbn. eauto.
  Qed.

  (** What the analysis object needs for the next evaluation. *)
  Definition good c ms a : Prop :=
    sizes_ok c ms a /\ length (concat (a_fconst a)) = 3 * length (c_labels c) /\ length (concat (a_forces a)) = 3 * length (c_labels c) /\
    length (a_f0red a) = c_ndof1 c /\ rows_ok c ms a.

  Section Truss.
    Variables (c : ctx F) (ms : list (member F)).
    Hypotheses (Hok : truss_ok c ms) (Hms : forall b, In b ms -> complete b).
    Notation n := (c_ndof1 c).

    Lemma good_set_j j a : good c ms a -> good c ms (set_j j a).
    Proof. intros H. exact H. Qed.
    Lemma good_recorded x a : good c ms a -> good c ms (set_lpf (last x f0) (set_Ured (removelast x) (set_Vred x a))).
    Proof. intros H. exact H. Qed.
    Lemma good_dVmax d a : good c ms a -> good c ms (set_dVmax d a).
    Proof. intros H. exact H. Qed.
    Lemma good_Kmod d a : good c ms a -> good c ms (set_Kmod d a).
    Proof. intros H. exact H. Qed.

    Lemma good_quants U U0 a : good c ms a -> exists qs, quants c U U0 (state_row c a) 0 ms qs.
    Proof.
      intros (_ & _ & _ & _ & Hr). apply SplitFacts.quants_total. intros i b Hb. cbn [Nat.add]. apply member_total; [apply Hms; eapply nth_error_In, Hb|].
      intros El. exact (Hr _ _ Hb El).
    Qed.

    (** Setup and state rows are kept by the evaluations. *)
    Lemma rows_kept a a' : a_state a' = a_state a -> rows_ok c ms a -> rows_ok c ms a'.
    Proof. unfold rows_ok, state_row. intros ->. auto. Qed.

    Lemma row_law (b : member F) e de y p r s d row' : umat (mb_law b) e de (mb_mat b) (Some (y :: p :: r)) = Ok (s, d, Some row') ->
      exists y' p' r', row' = y' :: p' :: r'.
    Proof.
      destruct (mb_law b); cbn [umat]; [unfold umat_el|unfold umat_elplast_iso]; cbn [item nth_error].
      - intros H. apply bind_ok in H. destruct H as (E & _ & H). injection H as _ _ <-. eauto.
      - intros H. do 3 (apply bind_ok in H; destruct H as (? & _ & H)). cbn [bind] in H.
        destruct (fleb _ _); injection H as _ _ <-; cbn; eauto.
    Qed.

    Lemma rows_written V V0 a a' g : sizes_ok c ms a -> rows_ok c ms a -> equilibrium c V V0 true a = Ok (a', g) -> rows_ok c ms a'.
    Proof.
      intros Hsz Hr H k b Hk El. destruct (Hr k b Hk El) as (y & p & r & Er). unfold state_row in Er.
      destruct (0 <? c_nstatev c)%Z eqn:En; [|discriminate]. apply Z.ltb_lt in En. destruct (a_state a) as [sv|] eqn:Es; [|discriminate].
      destruct (state_written _ _ _ _ _ _ _ _ Hok Hsz H En Es) as (sv' & E1 & _ & E3).
      destruct (E3 k b Hk) as (row & row' & lam & st & de & ds & G1 & G2 & _ & _ & G5). rewrite G1 in Er. injection Er as ->.
      destruct (row_law _ _ _ _ _ _ _ _ _ G5) as (y' & p' & r' & ->). exists y', p', r'. unfold state_row.
      apply Z.ltb_lt in En. rewrite En, E1. exact G2.
    Qed.

    Lemma g_total w V V0 a : good c ms a -> length V = S n -> length V0 = S n ->
      exists a' g, equilibrium c V V0 w a = Ok (a', g) /\ good c ms a' /\ length g = n.
    Proof.
      intros Hg HV HV0. pose proof Hg as (Hsz & Hl1 & Hl2 & Hf & Hr).
      pose proof Hsz as (HU & HU0 & _ & _ & _ & _ & _ & _ & HD & HD' & Hn & _).
      assert (Hp : exists an1, equil_prepare c StG V V0 a = Ok (an1, ext_disp c V, ext_lpf c V (a_lpf a))).
      { assert (El : Nat.ltb n (length V) = true) by (apply Nat.ltb_lt; lia).
        destruct (scatter_total (a_U a) (a_DOF1 a) (firstn n V)) as [x Hx]; [intros; rewrite HU; auto|rewrite firstn_length; lia|].
        destruct (scatter_total (a_U0 a) (a_DOF1 a) (firstn n V0)) as [y Hy]; [intros; rewrite HU0; auto|rewrite firstn_length; lia|].
        unfold equil_prepare, ext_disp, ext_lpf. rewrite El. cbn zeta. cbn [a_U a_U0 a_DOF1 set_r]. rewrite Hx. cbn [bind]. rewrite Hy. cbn [bind]. eauto. }
      destruct Hp as [an1 Hp]. pose proof (gprepare_sizes _ _ _ _ _ _ _ _ _ Hsz Hp) as Hsz1.
      pose proof (gprepare_frame _ _ _ _ _ _ _ _ Hp) as (P1 & P2 & P3 & P4 & _).
      destruct (good_quants (a_U an1) (a_U0 an1) a Hg) as [qs Hq].
      assert (Hq1 : quants c (a_U an1) (a_U0 an1) (state_row c an1) 0 ms qs).
      { eapply quants_ext; [|exact Hq]. intros j _. unfold state_row. rewrite P1. reflexivity. }
      assert (T : exists a' g, equilibrium c V V0 w a = Ok (a', g)).
      { unfold equilibrium. rewrite Hp. cbn [bind]. rewrite (elem_loop_ok c ms StG _ _ w an1 qs Hok Hsz1 Hq1). cbn [bind].
        set (an2 := loop_an StG c (ext_disp c V) (ext_lpf c V (a_lpf a)) w (zipk 0 ms qs) an1).
        pose proof (loop_frame StG c (ext_disp c V) (ext_lpf c V (a_lpf a)) w (zipk 0 ms qs) an1) as Hfr. cbn zeta in Hfr. fold an2 in Hfr.
        destruct Hfr as (_ & _ & _ & _ & _ & E3 & _ & _ & _ & _ & _ & _ & E4 & E5).
        assert (Hsz2 : sizes_ok c ms an2) by (apply loop_sizes; auto; intros x Hx; eapply zipk_In; eauto).
        destruct Hsz2 as (_ & _ & Hr2 & _).
        assert (Lr : length (map fopp (vflat (a_r an2))) = 3 * length (c_labels c)) by (rewrite map_length, vflat_length, Hr2; reflexivity).
        rewrite bcast2_same by (rewrite E4, P3; lia). cbn [bind].
        rewrite bcast2_same by (rewrite map2_length, Lr, map_length, E4, E5, P3, P4; lia). cbn [bind].
        match goal with |- context [gather ?g ?d] => destruct (gather_ok g d) as [gr Hgr] end.
        { rewrite E3, P2. intros i Hi. rewrite !map2_length, Lr, map_length, E4, E5, P3, P4. specialize (HD' i Hi). lia. }
        rewrite Hgr. cbn [bind]. eauto. }
      destruct T as (a' & g & T). exists a', g. split; [exact T|].
      pose proof (equilibrium_same _ _ _ _ _ _ _ T) as ((_ & S1 & S2 & S3 & S4 & S5 & _) & Hst & _).
      split; [split; [exact (gequilibrium_sizes _ _ _ _ _ _ _ _ Hok Hsz T)|split; [rewrite S4; exact Hl1|split; [rewrite S5; exact Hl2|split; [rewrite S3; exact Hf|]]]]|].
      - destruct w; [exact (rows_written _ _ _ _ _ Hsz Hr T)|]. eapply rows_kept; [apply Hst; reflexivity|exact Hr].
      - destruct (gequilibrium_inv _ _ _ _ _ _ _ _ Hok Hsz T) as (? & ? & ? & _ & _ & _ & _ & _ & Hga). apply gather_nth in Hga. destruct Hga as [-> _]. lia.
    Qed.

    Lemma k_total u a : good c ms a -> length u = n ->
      exists a' K, stiffness c u a = Ok (a', K) /\ good c ms a' /\ length K = n /\ forall row, In row K -> length row = n.
    Proof.
      intros Hg Hu. pose proof Hg as (Hsz & Hl1 & Hl2 & Hf & Hr).
      pose proof Hsz as (HU & HU0 & _ & _ & _ & _ & _ & _ & HD & HD' & Hn & _).
      assert (Hp : exists an1, equil_prepare c StK u u a = Ok (an1, u, a_lpf a)).
      { unfold equil_prepare. destruct (Nat.ltb_spec n (length u)); [lia|]. cbn zeta.
        destruct (scatter_total (a_U a) (a_DOF1 a) u) as [x Hx]; [intros; rewrite HU; auto|lia|].
        destruct (scatter_total (a_U0 a) (a_DOF1 a) u) as [y Hy]; [intros; rewrite HU0; auto|lia|].
        cbn [a_U a_U0 a_DOF1 set_K]. rewrite Hx. cbn [bind]. rewrite Hy. cbn [bind]. eauto. }
      destruct Hp as [an1 Hp]. pose proof (gprepare_sizes _ _ _ _ _ _ _ _ _ Hsz Hp) as Hsz1.
      pose proof (gprepare_frame _ _ _ _ _ _ _ _ Hp) as (P1 & P2 & _).
      destruct (good_quants (a_U an1) (a_U0 an1) a Hg) as [qs Hq].
      assert (Hq1 : quants c (a_U an1) (a_U0 an1) (state_row c an1) 0 ms qs).
      { eapply quants_ext; [|exact Hq]. intros j _. unfold state_row. rewrite P1. reflexivity. }
      assert (T : exists a' K, stiffness c u a = Ok (a', K) /\ length K = n /\ forall row, In row K -> length row = n).
      { unfold stiffness. rewrite Hp. cbn [bind]. rewrite (elem_loop_ok c ms StK _ _ false an1 qs Hok Hsz1 Hq1). cbn [bind].
        set (an2 := loop_an StK c u (a_lpf a) false (zipk 0 ms qs) an1).
        assert (Hsz2 : sizes_ok c ms an2) by (apply loop_sizes; auto; intros x Hx; eapply zipk_In; eauto).
        destruct Hsz2 as (_ & _ & _ & A & B & _ & _ & _ & _ & D & En & _).
        assert (HK : kdims (length (c_labels c)) (a_K an2)) by (split; auto).
        destruct (gflat_K_dims _ _ HK) as [F1 F2].
        destruct (gselect2_total _ _ (a_DOF1 an2) F1 F2 D) as (K & HK2 & L1 & L2). rewrite HK2. cbn [bind].
        do 2 eexists. split; [reflexivity|]. rewrite En. auto. }
      destruct T as (a' & K & T & L1 & L2). exists a', K. split; [exact T|].
      pose proof (stiffness_same _ _ _ _ _ T) as ((_ & S1 & S2 & S3 & S4 & S5 & _) & Hst).
      split; [|split; assumption].
      split; [exact (gstiffness_sizes _ _ _ _ _ _ Hok Hsz T)|]. split; [rewrite S4; exact Hl1|]. split; [rewrite S5; exact Hl2|]. split; [rewrite S3; exact Hf|].
      eapply rows_kept; [exact Hst|exact Hr].
    Qed.

    (** ** Outcomes: a result with [Q], no result in the given time, or a number that is
        not one ([jf]: the control component is locked). *)
    Definition fine (jf : bool) {A} (Q : A -> Prop) (r : res A) : Prop :=
      match r with
      | Ok x => Q x
      | Timeout => True
      | Err e => e = ValueError /\ jf = false /\ exists v : F, fisnan v = true
      end.

    Lemma fine_bind jf {A B} (Q : A -> Prop) (Q' : B -> Prop) (r : res A) (k : A -> res B) :
      fine jf Q r -> (forall x, Q x -> fine jf Q' (k x)) -> fine jf Q' (bind r k).
    Proof. destruct r; cbn; auto. Qed.

    Lemma fine_ok jf {A B} (Q : B -> Prop) (r : res A) (k : A -> res B) :
      (exists x, r = Ok x /\ fine jf Q (k x)) -> fine jf Q (bind r k).
    Proof. intros (x & -> & H). exact H. Qed.

    (** ** Newton iteration *)
    Variables (solve : list (list F) -> list F -> list F) (argsortF : list F -> list nat).
    Hypothesis Hsolve : forall M b, length M = length b -> length (solve M b) = length b.
    Hypothesis Hsort : forall l, Permutation (argsortF l) (seq 0 (length l)).

    Definition in_range (j : Z) : Prop := (Z.abs j <= Z.of_nat (S n))%Z.

    Lemma get_j {A} (l : list A) j : in_range j -> length l = S n -> exists x, py_get l (Z.abs j - 1) = Ok x.
    Proof. intros Hj Hl. apply py_get_in. unfold in_range in Hj. lia. Qed.

    Lemma f_total w V V0 j Vmax a : good c ms a -> length V = S n -> length V0 = S n -> in_range j ->
      exists a' v, f_ext (equilibrium c) V0 j Vmax w V a = Ok (a', v) /\ good c ms a' /\ length v = S n.
    Proof.
      intros Hg HV HV0 Hj. unfold f_ext.
      destruct (g_total w V V0 (set_j j a) Hg HV HV0) as (a' & g & -> & Hg' & Lg). cbn [bind].
      destruct (get_j V j Hj HV) as (x & ->). cbn [bind]. do 2 eexists. split; [reflexivity|]. split; [exact Hg'|].
      rewrite app_length, map_length, Lg. cbn. lia.
    Qed.

    Lemma d_total V j a : good c ms a -> length V = S n -> in_range j ->
      exists a' Km, dfdx (stiffness c) j V a = Ok (a', Km) /\ good c ms a' /\ length Km = S n.
    Proof.
      intros Hg HV Hj. unfold dfdx, ctrl_row. destruct (py_pos_in (length V) (Z.abs j - 1)) as (p & -> & Hp); [unfold in_range in Hj; lia|]. cbn [bind].
      assert (Lr : length (removelast V) = n).
      { destruct (exists_last (l := V)) as (u & y & ->); [intros ->; discriminate|]. rewrite removelast_last. rewrite app_length in HV. cbn in HV. lia. }
      destruct (k_total (removelast V) (set_j j a) Hg Lr) as (a' & K & -> & Hg' & L1 & L2). cbn [bind].
      pose proof Hg' as (_ & _ & _ & Hf & _). unfold hstack_col. rewrite map_length, Hf, L1, Nat.eqb_refl. cbn [bind].
      match goal with |- context [forallb ?p ?l] => assert (Hall : forallb p l = true) end.
      { apply forallb_forall. intros row Hin. rewrite set_nth_length, repeat_length. apply Nat.eqb_eq.
        clear -Hin L2 HV. revert Hin L2. generalize (map fopp (a_f0red a')). induction K as [|r K IH]; intros [|f fs] Hin HrK; cbn [map2 In] in Hin; try contradiction.
        destruct Hin as [<- | Hin]; [rewrite app_length, (HrK r) by (left; auto); cbn; lia|]. eapply IH; [exact Hin|]. intros; apply HrK; right; auto. }
      rewrite Hall. do 2 eexists. split; [reflexivity|]. split; [exact Hg'|]. rewrite app_length, map2_length, map_length, L1, Hf. cbn. lia.
    Qed.

    Lemma newton_loop_total V0 j Vmax ftol xtol : length V0 = S n -> in_range j -> forall k m x prev a,
      good c ms a -> length x = S n -> (k = 0 -> prev <> None) ->
      exists a' o, newton_loop solve (f_ext (equilibrium c) V0 j Vmax false) (dfdx (stiffness c) j) ftol xtol k m x prev a = Ok (a', o) /\
        good c ms a' /\ length (no_x o) = S n /\ (k = 1 -> no_n o = (m + 1)%Z).
    Proof.
      intros HV0 Hj. induction k as [|k IH]; intros m x prev a Hg Hx Hk.
      - destruct prev as [[fnm xnm]|]; [|exfalso; now apply Hk]. cbn. do 2 eexists. split; [reflexivity|]. cbn. repeat split; auto; try apply Hg; discriminate.
      - cbn [newton_loop]. destruct (d_total x j a Hg Hx Hj) as (a1 & Km & -> & Hg1 & LK). cbn [bind].
        destruct (f_total false x V0 j Vmax a1 Hg1 Hx HV0 Hj) as (a2 & v & -> & Hg2 & Lv). cbn [bind].
        assert (Ls : length (solve Km (map fopp v)) = S n) by (rewrite Hsolve; rewrite map_length; congruence).
        rewrite bcast2_same by congruence. cbn [bind].
        assert (Lx : length (map2 fadd x (solve Km (map fopp v))) = S n) by (rewrite map2_length; lia).
        destruct (f_total false _ V0 j Vmax a2 Hg2 Lx HV0 Hj) as (a3 & v3 & -> & Hg3 & Lv3). cbn [bind]. cbv zeta.
        destruct (_ && _).
        + do 2 eexists. split; [reflexivity|]. cbn. repeat split; auto; apply Hg3.
        + destruct (IH (m + 1)%Z _ (Some (fnorm v3, fnorm (solve Km (map fopp v)))) a3 Hg3 Lx ltac:(discriminate)) as (a4 & o & E & Hg4 & Lo & _).
          exists a4, o. split; [exact E|]. split; [exact Hg4|]. split; [exact Lo|]. intros Hk1. assert (k = 0) by lia. subst k. cbn in E. injection E as _ <-. reflexivity.
    Qed.

    Lemma newton_total V0 j Vmax ftol xtol nfev x a : length V0 = S n -> in_range j -> good c ms a -> length x = S n -> (1 <= nfev)%Z ->
      exists a' o, newton solve (f_ext (equilibrium c) V0 j Vmax false) (dfdx (stiffness c) j) x nfev ftol xtol a = Ok (a', o) /\
        good c ms a' /\ length (no_x o) = S n /\ (nfev = 1%Z -> no_n o = 1%Z).
    Proof.
      intros HV0 Hj Hg Hx Hn. unfold newton. destruct (newton_loop_total V0 j Vmax ftol xtol HV0 Hj (Z.to_nat nfev) 0 x None a Hg Hx ltac:(lia)) as (a' & o & E & H1 & H2 & H3).
      exists a', o. repeat split; auto; try apply H1. intros ->. apply H3. reflexivity.
    Qed.

    (** ** Choice of the control component *)
    Lemma biggest_total (Dx dxmax : list F) : length Dx = S n -> length dxmax = S n ->
      exists i v, biggest argsortF Dx dxmax = Ok (i, v) /\ i <= S n.
    Proof.
      intros H1 H2. unfold biggest. rewrite bcast2_same by congruence. cbn [bind]. set (q := map2 fdiv Dx dxmax). cbv zeta.
      assert (Lq : length q = S n) by (unfold q; rewrite map2_length; lia).
      pose proof (Hsort (map fabs q)) as Hp. pose proof (Permutation_length Hp) as Lp. rewrite seq_length, map_length in Lp.
      destruct (py_get_in (argsortF (map fabs q)) (-1)) as (i & E); [lia|]. rewrite E. cbn [bind].
      assert (Hi : i < S n).
      { apply py_get_nth in E. destruct E as (p & _ & E). apply nth_error_In in E. apply (Permutation_in _ Hp) in E. apply in_seq in E. rewrite map_length in E. lia. }
      destruct (nth_error q i) eqn:En; [|apply nth_error_None in En; lia]. cbn [bind]. do 2 eexists. split; [reflexivity|lia].
    Qed.

    Lemma signed_fine i v : i <= S n -> fine false in_range (signed_index i v).
    Proof.
      intros Hi. unfold signed_index. destruct (fisnan v) eqn:E; cbn; [eauto|]. unfold in_range. destruct (fltb f0 v); [lia|]. destruct (fltb v f0); lia.
    Qed.

    Lemma predict_fine (cfg : pfcfg F) x dxmax j a : good c ms a -> length x = S n -> length dxmax = S n -> in_range j ->
      fine false (fun p => good c ms (pr_an p) /\ in_range (pr_j p) /\ pr_n p = 1%Z /\ length (pr_Dx p) = S n)
        (predict solve argsortF (equilibrium c) (stiffness c) cfg x dxmax j a).
    Proof.
      intros Hg Hx Hd Hj. unfold predict. destruct (get_j x j Hj Hx) as (xj & ->). cbn [bind]. destruct (get_j dxmax j Hj Hd) as (dj & ->). cbn [bind]. cbv zeta.
      destruct (newton_total x j (fadd xj (fmul dj (fofZ (Z.sgn j)))) (cf_ftol cfg) (cf_xtol cfg) 1 x a Hx Hj Hg Hx ltac:(lia)) as (a1 & o & -> & Hg1 & Lo & Hn). cbn [bind].
      rewrite bcast2_same by congruence. cbn [bind]. assert (LD : length (map2 fsub (no_x o) x) = S n) by (rewrite map2_length; lia).
      destruct (biggest_total _ _ LD Hd) as (i & v & -> & Hi). cbn [bind].
      eapply fine_bind; [apply signed_fine, Hi|]. intros j' Hj'. cbn. repeat split; auto; apply Hg1.
    Qed.

    (** ** Step control *)
    Lemma control_total (cfg : pfcfg F) d d0 j j0 z ok b m nfev : feqb (cf_reduce cfg) f0 = false -> length d = S n -> length d0 = S n ->
      exists d' z' b' ch, dxmax_control cfg d d0 j j0 z ok b m nfev = Ok (d', z', b', ch) /\ length d' = S n.
    Proof.
      intros Hr H1 H2. unfold dxmax_control. destruct d as [|x d]; [discriminate|]. destruct d0 as [|x0 d0]; [discriminate|].
      destruct (py_get_in (x :: d) 0) as (y & ->); [cbn [length]; lia|]. destruct (py_get_in (x0 :: d0) 0) as (y0 & ->); [cbn [length]; lia|]. cbn [bind]. cbv zeta. rewrite Hr.
      repeat match goal with |- context [if ?b then _ else _] => destruct b end; do 4 eexists; (split; [reflexivity|]); rewrite ?map_length; assumption.
    Qed.

    (** ** The recycle loop *)
    Lemma recycle_fine (cfg : pfcfg F) x0 dxmax0 pre :
      (cf_stepcontrol cfg = true -> feqb (cf_reduce cfg) f0 = false) -> 1 <= n -> length x0 = S n -> length dxmax0 = S n ->
      (forall Dx v, pre = Some (Dx, v) -> length Dx = S n) ->
      forall fuel s, good c ms (rc_an s) -> in_range (rc_j s) -> length (rc_dxmax s) = S n ->
      (1 <= cf_nfev cfg - rc_npre s)%Z -> (1 <= cf_nfev cfg)%Z ->
      fine (cf_jfixed cfg) (fun o => good c ms (rc_an (fst (fst o))) /\ in_range (rc_j (fst (fst o))) /\ length (rc_dxmax (fst (fst o))) = S n /\ length (snd (fst o)) = S n)
        (recycle solve argsortF (equilibrium c) (stiffness c) cfg x0 dxmax0 pre fuel s).
    Proof.
      intros Hr Hn Hx0 Hd0 Hpre. induction fuel as [|fuel IH]; intros s Hg Hj Hd Hv1 Hv2; [exact Logic.I|].
      cbn [recycle]. cbv zeta. destruct (get_j x0 _ Hj Hx0) as (xj & ->). cbn [bind]. destruct (get_j (rc_dxmax s) _ Hj Hd) as (dj & ->). cbn [bind].
      apply fine_bind with (Q := fun xs => length xs = S n).
      { destruct pre as [[Dx v]|]; [|exact Hx0]. destruct (_ =? 0)%Z; [|exact Hx0].
        specialize (Hpre _ _ eq_refl). rewrite bcast2_same by (rewrite map_length; congruence). cbn. rewrite map2_length, map_length. lia. }
      intros xs Hxs. destruct (newton_total x0 (rc_j s) (fadd xj (fmul dj (fofZ (Z.sgn (rc_j s))))) (cf_ftol cfg) (cf_xtol cfg) (cf_nfev cfg - rc_npre s) xs (rc_an s) Hx0 Hj Hg Hxs Hv1) as (a1 & o & -> & Hg1 & Lo & _). cbn [bind].
      rewrite bcast2_same by congruence. cbn [bind]. assert (LD : length (map2 fsub (no_x o) x0) = S n) by (rewrite map2_length; lia).
      destruct (biggest_total _ _ LD Hd) as (i & v & -> & Hi). cbn [bind].
      destruct (Nat.ltb_spec (length (no_x o)) 2); [lia|].
      apply fine_bind with (Q := in_range).
      { destruct (cf_jfixed cfg); [exact Hj|]. apply signed_fine, Hi. }
      intros j Hj1. rewrite bcast2_same by congruence. cbn [bind].
      assert (Lq : length (map2 fdiv (map2 fsub (no_x o) x0) (rc_dxmax s)) = S n) by (rewrite map2_length; lia).
      apply fine_bind with (Q := fun _ => True).
      { destruct (cf_jfixed cfg); [|exact Logic.I]. destruct (get_j _ _ Hj1 Lq) as (qj & ->). exact Logic.I. }
      intros valid _.
      apply fine_bind with (Q := fun p => length (fst (fst (fst p))) = S n).
      { destruct (cf_stepcontrol cfg); [|exact Hd].
        destruct (control_total cfg (rc_dxmax s) dxmax0 j (rc_j s) (rc_z s) (no_success o) (rc_b s) (no_n o) (cf_nfev cfg - rc_npre s) (Hr eq_refl) Hd Hd0) as (d' & z' & b' & ch & -> & L). exact L. }
      intros [[[d' z'] b'] ch] Ld. cbn [fst snd] in Ld.
      destruct (valid && no_success o).
      { destruct (f_total true (no_x o) x0 (rc_j s) (fadd xj (fmul dj (fofZ (Z.sgn (rc_j s))))) (set_dVmax (rc_dxmax s) a1) Hg1 Lo Hx0 Hj) as (a3 & v3 & -> & Hg3 & _).
        cbn. repeat split; auto; apply Hg3. }
      destruct (z' + 1 =? cf_cycl cfg)%Z; [cbn; repeat split; auto; apply Hg1|].
      destruct (_ && _); [cbn; repeat split; auto; apply Hg1|].
      apply IH; cbn [rc_an rc_j rc_dxmax rc_npre]; [exact Hg1|destruct (no_success o); assumption|exact Ld|lia|exact Hv2].
    Qed.

    (** ** Increments *)
    Lemma init_len {A} (x : list A) : length x = S n -> length (removelast x) = n.
    Proof.
      intros H. destruct (exists_last (l := x)) as (u & y & ->); [intros ->; discriminate|]. rewrite removelast_last. rewrite app_length in H. cbn in H. lia.
    Qed.

    Lemma increment_fine (cfg : pfcfg F) dxmax0 fuel s :
      (cf_stepcontrol cfg = true -> feqb (cf_reduce cfg) f0 = false) -> 1 <= n -> length dxmax0 = S n ->
      (1 <= cf_nfev cfg)%Z -> (ps_jpre s = true -> cf_jfixed cfg = false -> (2 <= cf_nfev cfg)%Z) ->
      good c ms (ps_an s) -> in_range (ps_j s) -> length (ps_x s) = S n -> length (ps_dxmax s) = S n ->
      fine (cf_jfixed cfg) (fun o => good c ms (ps_an (fst o)) /\ in_range (ps_j (fst o)) /\ length (ps_x (fst o)) = S n /\ length (ps_dxmax (fst o)) = S n /\
           (ps_jpre (fst o) = true -> ps_jpre s = true) /\ length (a_Ured (ps_an (fst o))) = n)
        (increment solve argsortF (equilibrium c) (stiffness c) cfg dxmax0 fuel s).
    Proof.
      intros Hr Hn Hd0 Hv1 Hv2 Hg Hj Hx Hd. unfold increment. cbv zeta. destruct (ps_jpre s && negb (cf_jfixed cfg)) eqn:Ep.
      - apply andb_true_iff in Ep. destruct Ep as [E1 E2]. apply negb_true_iff in E2. rewrite E2. specialize (Hv2 E1 E2).
        eapply fine_bind; [apply (predict_fine cfg _ _ _ _ Hg Hx Hd Hj)|]. intros p (Gp & Jp & Np & Lp). cbn beta in *.
        destruct (pr_success p); [cbn; repeat split; auto using init_len; apply Gp|].
        eapply fine_bind.
        { rewrite <- E2. apply recycle_fine; auto; cbn [rc_an rc_j rc_dxmax rc_npre]; auto; [|lia].
          intros Dx v. destruct (negb _); [|discriminate]. intros H. injection H as <- _. exact Lp. }
        intros [[r x] stop] (G1 & J1 & L1 & L2). cbn [fst snd] in *. cbn. repeat split; auto using init_len; apply G1.
      - eapply fine_bind.
        { apply recycle_fine; auto; cbn [rc_an rc_j rc_dxmax rc_npre]; auto; [discriminate|lia]. }
        intros [[r x] stop] (G1 & J1 & L1 & L2). cbn [fst snd] in *. cbn. repeat split; auto using init_len; apply G1.
    Qed.

    Lemma increments_fine (cfg : pfcfg F) dxmax0 fuel kl jp :
      (cf_stepcontrol cfg = true -> feqb (cf_reduce cfg) f0 = false) -> 1 <= n -> length dxmax0 = S n ->
      (1 <= cf_nfev cfg)%Z -> (jp = true -> cf_jfixed cfg = false -> (2 <= cf_nfev cfg)%Z) ->
      cf_xlimit cfg = Some kl -> (- Z.of_nat n <= fst kl <= Z.of_nat n + 1)%Z ->
      forall k s, (ps_jpre s = true -> jp = true) -> good c ms (ps_an s) -> in_range (ps_j s) -> length (ps_x s) = S n -> length (ps_dxmax s) = S n -> length (a_Ured (ps_an s)) = n ->
      fine (cf_jfixed cfg) (fun s' => good c ms (ps_an s') /\ length (a_Ured (ps_an s')) = n) (increments solve argsortF (equilibrium c) (stiffness c) cfg dxmax0 fuel k s).
    Proof.
      intros Hr Hn Hd0 Hv1 Hv2 Hxl Hkl. induction k as [|k IH]; intros s Hp Hg Hj Hx Hd HU; [cbn; auto|]. cbn [increments].
      eapply fine_bind; [apply increment_fine; auto|]. intros [s1 stop] (G1 & J1 & L1 & L2 & P1 & U1). cbn [fst snd] in *.
      destruct stop; [cbn; auto|].
      unfold beyond_limit. rewrite Hxl. destruct kl as [kx lim]. cbn [fst] in Hkl.
      destruct (py_get_in (ps_x s1) (kx - 1)) as (xk & ->); [lia|]. cbn [bind].
      destruct lim as [lim|]; [destruct (fltb lim (fabs xk)); [cbn; auto|]|]; apply IH; auto.
    Qed.

    Lemma expand_len (du dlpf : F) : 1 <= n -> length (expand_dxmax (S n) (DxVec [du; dlpf])) = S n.
    Proof. intros H. cbn [expand_dxmax]. rewrite app_length, map_length, repeat_length. cbn. lia. Qed.

    (** ** Steps *)
    Definition ready a : Prop := sizes_ok c ms a /\ rows_ok c ms a /\ length (a_Ured a) = n.

    Lemma block_rows k (rows : list (list F)) nst : (forall r, In r rows -> 3 * nst <= length r) -> k < nst ->
      forall r, In r (block k rows) -> length r = 3.
    Proof.
      intros Hr Hk r Hin. unfold block in Hin. apply in_map_iff in Hin. destruct Hin as (r0 & <- & Hin). specialize (Hr _ Hin).
      rewrite firstn_length, skipn_length. lia.
    Qed.

    Lemma concat3 (l : list (list F)) : (forall r, In r l -> length r = 3) -> length (concat l) = 3 * length l.
    Proof.
      induction l as [|r l IH]; intros H; [reflexivity|]. cbn [concat]. rewrite app_length, (H r), IH; [cbn [length]; lia| |left; reflexivity].
      intros; apply H; right; assumption.
    Qed.

    Lemma add_scaled_total (acc blk : list (list F)) l : length acc = length blk -> (forall r, In r acc -> length r = 3) -> (forall r, In r blk -> length r = 3) ->
      exists acc', add_scaled acc l blk = Ok acc' /\ length acc' = length acc /\ forall r, In r acc' -> length r = 3.
    Proof.
      intros HL Ha Hb. unfold add_scaled. destruct (forallb _ _) eqn:E.
      - eexists. split; [reflexivity|]. split; [rewrite map2_length; lia|]. clear - Ha Hb. revert blk Ha Hb. induction acc as [|x acc IH]; intros [|y blk] Ha Hb r Hin; try contradiction.
        destruct Hin as [<- | Hin]; [rewrite map2_length, (Ha x), (Hb y) by (left; reflexivity); reflexivity|].
        eapply (IH blk); [| |exact Hin]; intros; [apply Ha|apply Hb]; right; assumption.
      - exfalso. enough (forallb (fun p => Nat.eqb (length (fst p)) (length (snd p))) (combine acc blk) = true) by congruence.
        apply forallb_forall. intros [x y] Hin. apply Nat.eqb_eq. cbn. rewrite (Ha x), (Hb y); [reflexivity|eapply in_combine_r, Hin|eapply in_combine_l, Hin].
    Qed.

    Lemma const_total (rows : list (list F)) lpfs k nst : (forall r, In r rows -> 3 * nst <= length r) -> k < nst -> k <= length lpfs ->
      exists f, const_forces rows lpfs k = Ok f /\ length f = length rows /\ forall r, In r f -> length r = 3.
    Proof.
      intros Hr Hk Hl. unfold const_forces.
      assert (G : forall ss acc, (forall s, In s ss -> s < nst /\ s < length lpfs) -> length acc = length rows -> (forall r, In r acc -> length r = 3) ->
        exists f, foldM (fun acc s => match nth_error lpfs s with None => Err IndexError | Some l => add_scaled acc l (block s rows) end) ss acc = Ok f /\
          length f = length rows /\ forall r, In r f -> length r = 3).
      { induction ss as [|s ss IH]; intros acc Hs La Ha; cbn [foldM]; [exists acc; auto|].
        destruct (Hs s (or_introl eq_refl)) as [H1 H2]. destruct (nth_error lpfs s) as [l|] eqn:E; [|apply nth_error_None in E; lia].
        destruct (add_scaled_total acc (block s rows) l) as (acc' & -> & L' & H'); [unfold block; rewrite map_length; exact La|exact Ha|exact (block_rows s rows nst Hr H1)|]. cbn [bind].
        apply IH; [intros; apply Hs; right; assumption|congruence|exact H']. }
      apply G.
      - intros s Hin. apply in_seq in Hin. lia.
      - unfold block. rewrite !map_length. reflexivity.
      - intros r Hin. apply in_map_iff in Hin. destruct Hin as (r0 & <- & Hin). rewrite map_length. exact (block_rows k rows nst Hr Hk r0 Hin).
    Qed.

    Lemma at_step_in {A} nst (p : perstep A) P k : each_step nst p P -> k < nst -> exists x, at_step p k = Ok x /\ P x.
    Proof.
      destruct p as [x|l]; cbn; intros H Hk; [eauto|]. destruct (H k Hk) as (x & -> & Hx). eauto.
    Qed.

    Lemma write_some (l R : list (analysis F)) : R <> [] -> fold_left write_result l R <> [].
    Proof.
      revert R. induction l as [|x l IH]; intros R H; [exact H|]. cbn [fold_left]. apply IH. unfold write_result. destruct (removelast R); discriminate.
    Qed.
    Lemma copy_some (R : list (analysis F)) : R <> [] -> copy_U_last R <> [].
    Proof.
      intros H. unfold copy_U_last. destruct (rev R) eqn:E; [|destruct (removelast R); discriminate].
      apply (f_equal (@rev _)) in E. rewrite rev_involutive in E. contradiction.
    Qed.

    Lemma step_fine (st : settings F) (rows : list (list F)) nst fuel k s : nst = Z.to_nat (s_nsteps st) -> usable n st -> 1 <= n ->
      length rows = length (c_labels c) -> (forall r, In r rows -> 3 * nst <= length r) -> k < nst ->
      ready (r_an s) -> r_R s <> [] -> k <= length (r_lpf_end s) ->
      fine (s_jfixed st) (fun s' => ready (r_an s') /\ (S k < nst -> r_R s' <> []) /\ S k <= length (r_lpf_end s')) (run_step argsortF solve c st rows nst fuel s k).
    Proof.
      intros En (V1 & V2 & V3 & V4 & V5 & V6 & V7) Hn Lr Hr Hk (Hsz & Hro & HU) HR Hl. rewrite <- En in *. unfold run_step.
      destruct (at_step_in _ _ _ _ V1 Hk) as (incs & -> & _). cbn [bind].
      apply fine_bind with (Q := fun kl => (- Z.of_nat n <= fst kl <= Z.of_nat n + 1)%Z).
      { destruct (at_step_in _ _ _ _ V2 Hk) as (xl & E & Hxl). destruct (s_xlimit st) as [x|[|x l]]; [rewrite E; exact Hxl| |rewrite E; exact Hxl].
        cbn in E. destruct k; discriminate. }
      intros xl Hxl. unfold step_setup. destruct (const_total rows (r_lpf_end s) k nst Hr Hk Hl) as (fc & -> & Lf & Hf). cbn [bind]. cbv zeta.
      assert (Lb : length (concat (block k rows)) = 3 * length (c_labels c)).
      { rewrite concat3 by exact (block_rows k rows nst Hr Hk). unfold block. rewrite map_length, Lr. reflexivity. }
      pose proof Hsz as (_ & _ & _ & _ & _ & _ & _ & _ & _ & HD & HD1 & _).
      destruct (gather_ok (concat (block k rows)) (a_DOF1 (r_an s))) as [f0r Hf0]; [intros i Hi; rewrite Lb; apply HD, Hi|]. rewrite Hf0. cbn [bind].
      match goal with |- context [pathfollow _ _ _ _ _ ?x _ _ _ _ _] => set (a0 := x) end.
      assert (Hg : good c ms a0).
      { split; [exact Hsz|]. split; [cbn; rewrite concat3 by exact Hf; lia|]. split; [exact Lb|]. split; [|exact Hro]. cbn. apply gather_nth in Hf0. destruct Hf0 as [-> _]. lia. }
      apply fine_bind with (Q := fun s' => good c ms (ps_an s') /\ length (a_Ured (ps_an s')) = n).
      { unfold pathfollow. cbv zeta.
        assert (Lx : length (a_Ured a0 ++ [f0]) = S n) by (rewrite app_length; cbn; lia). rewrite Lx.
        assert (G : forall j, in_range j -> fine (s_jfixed st) (fun s' => good c ms (ps_an s') /\ length (a_Ured (ps_an s')) = n)
          (increments solve argsortF (fun V V0 w a => equilibrium c V V0 w a) (fun U a => stiffness c U a) (pf_config st xl incs) (expand_dxmax (S n) (DxVec [s_du st; s_dlpf st])) fuel
            (Z.to_nat (cf_incs (pf_config st xl incs)))
            (Pf a0 (a_Ured a0 ++ [f0]) j (s_jpre st) (expand_dxmax (S n) (DxVec [s_du st; s_dlpf st])) 4 [(a_Ured a0 ++ [f0], a0)] []))).
        { intros j Hj. apply (increments_fine (pf_config st xl incs) _ fuel xl (s_jpre st)); cbn [ps_an ps_x ps_j ps_jpre ps_dxmax]; auto using expand_len. }
        cbn [cf_jfixed pf_config]. destruct (s_jfixed st) eqn:Ej; cbn [negb].
        - destruct (V5 eq_refl) as (j & -> & Hj). apply G. unfold in_range. lia.
        - apply G. unfold in_range. lia. }
      intros pf (Hg' & LU). cbv zeta. set (R2 := copy_U_last _). assert (HR2 : R2 <> []) by (apply copy_some, write_some, HR).
      destruct (rev R2) as [|x ?] eqn:Erev; [exfalso; apply (f_equal (@rev _)) in Erev; rewrite rev_involutive in Erev; contradiction|]. cbn [bind].
      destruct Hg' as (G1 & _ & _ & _ & G2).
      destruct (Nat.ltb_spec (k + 1) nst); cbn [fine r_an r_R r_lpf_end].
      - split; [split; [exact G1|split; [exact G2|exact LU]]|]. split; [intros _; exact HR2|rewrite app_length; cbn; lia].
      - split; [split; [exact G1|split; [exact G2|exact LU]]|]. split; [lia|rewrite app_length; cbn; lia].
    Qed.

    Lemma steps_fine (st : settings F) (rows : list (list F)) nst fuel : nst = Z.to_nat (s_nsteps st) -> usable n st -> 1 <= n ->
      length rows = length (c_labels c) -> (forall r, In r rows -> 3 * nst <= length r) -> forall q k s, k + q = nst ->
      ready (r_an s) -> (k < nst -> r_R s <> []) -> k <= length (r_lpf_end s) ->
      fine (s_jfixed st) (fun _ => True) (foldM (run_step argsortF solve c st rows nst fuel) (seq k q) s).
    Proof.
      intros En Hu Hn Lr Hr. induction q as [|q IH]; intros k s Hk Hre HR Hl; [exact Logic.I|]. cbn [seq foldM].
      eapply fine_bind; [apply step_fine; auto; try lia; apply HR; lia|]. intros s' (A & B & D). apply IH; [lia|exact A|exact B|exact D].
    Qed.
  End Truss.

  (** ** Runs *)
  Section Runs.
    Variables (argsortZ : list Z -> list nat) (argsortF : list F -> list nat) (solve : list (list F) -> list F -> list F).

    Lemma rows_kany c ms cfg jp x0 a0 x a : truss_ok c ms -> sizes_ok c ms a0 -> rows_ok c ms a0 -> kany solve c cfg jp x0 a0 x a -> rows_ok c ms a.
    Proof.
      intros Hok Hsz Hr [H|[H|H]].
      - intros k b Hk El. destruct (Hr k b Hk El) as (y & p & r & Er). unfold state_row in Er.
        destruct (0 <? c_nstatev c)%Z eqn:En; [|discriminate]. apply Z.ltb_lt in En. destruct (a_state a0) as [sv|] eqn:Es; [|discriminate].
        destruct (kacc_state _ _ _ _ _ _ _ _ _ Hok Hsz En Es H) as (sv' & E1 & _ & E3).
        destruct (E3 k b Hk) as (row & row' & lam & st & de & ds & G1 & G2 & _ & _ & G5). rewrite G1 in Er. injection Er as ->.
        destruct (row_law _ _ _ _ _ _ _ _ _ G5) as (y' & p' & r' & ->). exists y', p', r'. unfold state_row.
        apply Z.ltb_lt in En. rewrite En, E1. exact G2.
      - apply kskp_same in H. eapply rows_kept; [apply H|exact Hr].
      - apply kfld_same in H. eapply rows_kept; [apply H|exact Hr].
    Qed.

    Lemma rows_step c ms D0 D1 st fuel k lg : truss_ok c ms -> reached c ms D0 D1 (lg_start lg) -> rows_ok c ms (lg_start lg) ->
      step_ran argsortF solve c st fuel k lg -> rows_ok c ms (lg_final lg).
    Proof.
      intros Hok Hr Hl H. apply step_any in H. destruct H as (incs & xl & H).
      eapply (along_impl _ (fun _ _ _ _ => True) (fun x a => reached c ms D0 D1 a /\ rows_ok c ms a)) in H.
      - destruct H as (_ & _ & Hlast). unfold lg_final. rewrite (last_snd _ _ (a_Ured (lg_start lg) ++ [f0])). apply Hlast.
      - split; [exact Hr|exact Hl].
      - intros x0 a0 x a (Hr0 & Hl0) Hk. split; [|exact Logic.I]. split; [eapply reached_kind; eassumption|].
        eapply rows_kany; [exact Hok|apply Hr0|exact Hl0|exact Hk].
    Qed.

    Lemma rows_steps c ms D0 D1 st rows fuel : truss_ok c ms -> forall logs k prev lpfs pl d,
      reached c ms D0 D1 prev -> reached_len c prev -> rows_ok c ms prev ->
      steps_from argsortF solve c st rows fuel k prev lpfs pl logs -> logs <> [] -> rows_ok c ms (lg_final (last logs d)).
    Proof.
      intros Hok. induction logs as [|lg logs IH]; intros k prev lpfs pl d Hr Hl Hro H Hne; [congruence|].
      cbn [steps_from] in H. destruct H as (Hs & Hran & Hrest). destruct (start_reached c ms D0 D1 _ _ _ _ _ Hs) as [H1 H2].
      assert (Hg : good_log c ms D0 D1 lg) by (eapply step_good; eauto).
      assert (Hf : rows_ok c ms (lg_final lg)).
      { eapply rows_step; [exact Hok|apply Hg| |exact Hran]. destruct Hs as (_ & _ & _ & _ & ->). exact Hro. }
      destruct logs as [|l2 logs]; [exact Hf|]. change (last (lg :: l2 :: logs) d) with (last (l2 :: logs) d).
      eapply IH; [| | |exact Hrest|discriminate]; [eapply reached_setup; [apply Hg|..]; reflexivity|apply Hg|exact Hf].
    Qed.

    Lemma rows_build m ns ms bs fs mb u nh eh : described m ns ms bs fs -> build argsortZ m = Ok mb -> m_built mb = Some u -> rows_ok (ctx_of mb u nh eh) ms (u_an u).
    Proof.
      intros Hd Hb Eu k b Hk El. pose proof Hd as (_ & _ & _ & (eh0 & He & Hms) & _).
      destruct (build_inv _ _ _ Hb) as (nh0 & eh1 & nh1 & bh & fh1 & D0 & D1 & an1 & E1 & E2 & Ef' & Eb & Eo & C1 & C2 & Hd0 & Hd1 & Han & Em).
      cbv zeta in *. assert (eh0 = eh1) by congruence. subst eh0.
      pose proof Hms as (Hlab & _). assert (Lel : length (el_labels eh1) = length ms) by (rewrite Hlab; apply map_length).
      assert (H2 : existsb (Z.eqb 2) (el_mtype eh1) = true).
      { apply existsb_exists. exists 2%Z. split; [|reflexivity]. destruct Hms as (_ & _ & Ht & _). rewrite Ht. apply in_map_iff. exists b. rewrite El. split; [reflexivity|]. eapply nth_error_In, Hk. }
      rewrite H2 in *. unfold analysis_build in Han. apply bind_ok in Han. destruct Han as (ur & _ & Han). injection Han as <-.
      rewrite Em in Eu. cbn [m_built] in Eu. injection Eu as <-. exists f0, f0, []. unfold state_row. rewrite Em. cbn. rewrite Lel.
      rewrite nth_error_repeat. destruct (Nat.ltb_spec k (length ms)); [reflexivity|]. assert (k < length ms) by (apply nth_error_Some; congruence). lia.
    Qed.

    Lemma rows_session P m ns ms bs fs m1 : argsort_ok argsortZ -> described m ns ms bs fs -> session argsortF solve argsortZ P m m1 ->
      forall u nh eh, m_built m1 = Some u -> rows_ok (ctx_of m1 u nh eh) ms (u_an u).
    Proof.
      intros HA Hd S. induction S as [m' H|m1 fuel m2 out S IH HP H|m1 st S IH E]; intros u nh eh Eu.
      - eapply rows_build; eassumption.
      - destruct (sound_session _ _ _ _ _ _ _ _ _ _ HA Hd S) as (mb & Hb & Hs).
        destruct (run_logs _ _ _ _ _ _ _ _ Hs H) as (nh1 & eh1 & ub & u0 & fh & r0 & rest & u' & En & Ee & Eub & Eu0 & Ef & ER & Eu' & Em & N1 & N2 & HH). cbv zeta in HH.
        assert (u' = u) by congruence. subst u'. clear H Eu.
        assert (Hst : a_state (u_an u) = a_state (u_an u) -> forall a, a_state a = a_state (u_an u) -> rows_ok (ctx_of m1 u0 nh1 eh1) ms a -> rows_ok (ctx_of m2 u nh eh) ms (u_an u)).
        { intros _ a Ea Hr k b Hk El. destruct (Hr k b Hk El) as (y & p & r & Er). exists y, p, r. rewrite <- Er. unfold state_row. rewrite Ea, Em. reflexivity. }
        destruct (s_nsteps (m_set m1) <=? 0)%Z eqn:L.
        + destruct HH as (_ & _ & _ & Ea). eapply Hst; [reflexivity| |apply (IH u0 nh1 eh1 Eu0)]. rewrite Ea. reflexivity.
        + destruct HH as (logs & B1 & B2 & B3 & B4 & B5 & B6 & B7). apply Z.leb_gt in L.
          destruct Hs as (_ & _ & _ & _ & S5 & nh2 & eh2 & ub2 & u2 & En2 & Ee2 & Eub2 & Eu2 & U1 & U2 & G). cbv zeta in G.
          assert (nh2 = nh1) by congruence. assert (eh2 = eh1) by congruence. assert (ub2 = ub) by congruence. assert (u2 = u0) by congruence. subst nh2 eh2 ub2 u2.
          destruct G as (Ec & Htr & Hn1 & Hnd & Hre & Hlen & HR).
          eapply Hst; [reflexivity| |].
          2:{ rewrite Ec. eapply (rows_steps _ _ _ _ _ _ _ Htr logs 0 _ _ _ (Log r0 [] [])); [| | |exact B2|intros ->; cbn in B1; lia].
              - eapply reached_setup; [exact Hre|..]; reflexivity.
              - exact Hlen.
              - rewrite <- Ec. exact (IH u0 nh1 eh1 Eu0). }
          rewrite (B6 (Log r0 [] [])). reflexivity.
      - intros k b Hk El. destruct (IH u nh eh Eu k b Hk El) as (y & p & r & Er). exists y, p, r. rewrite <- Er. unfold state_row, ctx_of, with_settings. cbn. rewrite E. reflexivity.
    Qed.

    Lemma results_session P m m1 : session argsortF solve argsortZ P m m1 -> forall u, m_built m1 = Some u -> u_R u <> [].
    Proof.
      intros S. induction S as [m' H|m1 fuel m2 out S IH HP H|m1 st S IH E]; intros u Eu.
      - destruct (build_inv _ _ _ H) as (nh0 & eh1 & nh1 & bh & fh1 & D0 & D1 & an1 & E1 & E2 & Ef' & Eb & Eo & C1 & C2 & Hd0 & Hd1 & Han & Em).
        cbv zeta in Em. rewrite Em in Eu. cbn in Eu. injection Eu as <-. discriminate.
      - apply run_ok in H. destruct H as (u1 & nh1 & eh1 & fh & r0 & rest & u' & A1 & A2 & A3 & A4 & A5 & -> & A7 & A8 & HH).
        cbn in Eu. injection Eu as <-. destruct (_ <=? 0)%Z; [destruct HH as (-> & _)|destruct HH as (? & _ & _ & -> & _)]; discriminate.
      - exact (IH u Eu).
    Qed.

    Hypothesis Hsolve : forall M b, length M = length b -> length (solve M b) = length b.
    Hypothesis Hsort : forall l, Permutation (argsortF l) (seq 0 (length l)).

    Theorem run_fine P m ns ms bs fs m1 u fuel : argsort_ok argsortZ -> described m ns ms bs fs -> session argsortF solve argsortZ P m m1 ->
      (forall b, In b ms -> complete b) -> m_built m1 = Some u -> 1 <= u_ndof1 u -> usable (u_ndof1 u) (m_set m1) ->
      (forall fh r, m_forces m1 = Some fh -> In r (e_rows fh) -> 3 * Z.to_nat (s_nsteps (m_set m1)) <= length r) ->
      fine (s_jfixed (m_set m1)) (fun _ => True) (run argsortF solve m1 fuel).
    Proof.
      intros HA Hd HS Hc Eu Hn Hu Hw. pose proof (rows_session _ _ _ _ _ _ _ HA Hd HS) as Hrows.
      destruct (sound_session _ _ _ _ _ _ _ _ _ _ HA Hd HS) as (mb & Hb & Hs).
      destruct (build_reached _ _ _ _ _ _ _ HA Hd Hb) as (nhb & ehb & fh & ub0 & ns' & Enb & Eeb & Ef & Eub0 & Hns' & _ & _ & Hfs & _).
      destruct Hs as (S1 & S2 & _ & S4 & S5 & nh & eh & ub & u0 & En & Ee & Eub & Eu0 & U1 & U2 & G). cbv zeta in G.
      assert (u0 = u) by congruence. subst u0. destruct G as (Ec & Htr & Hn1 & Hnd & Hre & Hlen & HR).
      rewrite <- Ec in *. unfold run.
      assert (Hlog : (1 <? s_log (m_set m1))%Z && match s_j0 (m_set m1) with Some _ => true | None => false end = false).
      { destruct Hu as (_ & _ & _ & _ & _ & _ & [H|H]); [destruct (Z.ltb_spec 1 (s_log (m_set m1))); [lia|reflexivity]|rewrite H; apply andb_false_r]. }
      assert (Hred : (1 <? s_log (m_set m1))%Z && s_stepcontrol (m_set m1) && feqb (s_reduce (m_set m1)) f0 = false).
      { destruct Hu as (_ & _ & _ & _ & _ & H & _). destruct (s_stepcontrol (m_set m1)); [rewrite H by reflexivity; apply andb_false_r|rewrite andb_false_r; reflexivity]. }
      rewrite Hlog, Hred, Eu, S1, S2, S4, En, Ee, Ef.
      destruct (u_R u) as [|r0 rest] eqn:ER.
      { exfalso. exact (results_session _ _ _ HS u Eu ER). }
      eapply fine_bind; [|intros ? _; exact Logic.I].
      apply (steps_fine (ctx_of m1 u nh eh) ms Htr Hc solve argsortF Hsolve Hsort (m_set m1) (e_rows fh) (Z.to_nat (s_nsteps (m_set m1))) fuel eq_refl Hu Hn); cbn [r_an r_R r_lpf_end]; try lia.
      - rewrite Enb in *. assert (nhb = nh) by congruence. subst nhb. rewrite Ef in Hfs. destruct Hfs as (_ & -> & _). destruct Hns' as [Hl _].
        unfold rows_for. rewrite !map_length. cbn [c_labels ctx_of]. rewrite Hl, map_length. reflexivity.
      - intros r. apply Hw. rewrite S4. exact Ef.
      - split; [apply Hre|]. split; [exact (Hrows u nh eh Eu)|]. apply Hlen. exact Hn.
      - discriminate.
    Qed.
  End Runs.
End Total.
