(** * Building a model with nodes numbered and axes named in another way *)
From Coq Require Import List ZArith Bool Arith Lia Permutation Sorting.Sorted Reals Lra.
Import ListNotations.
From Verif Require Import Num NumR Vec Handlers Material Analysis Truss Equil Solver Run ListFacts SpecBuild BuildFacts BuildProps SpecRun SpecSame SameRun SpecNumber PickFacts NumberEval NumberRun MirrorRun.
Local Open Scope R_scope.

(** Every rearrangement is an order of the places. *)
Lemma perm_pick {A} (l' l : list A) : Permutation l' l -> exists q, order (length l) q /\ l' = pick q l.
Proof.
  intros H. destruct l as [|d l0] eqn:E.
  - apply Permutation_sym, Permutation_nil in H. subst l'. exists []. split; [constructor|reflexivity].
  - rewrite <- E in *. assert (El : l = map (fun i => nth i l d) (seq 0 (length l))).
    { clear. induction l as [|x l IH]; [reflexivity|]. cbn [length seq map nth]. f_equal. rewrite IH at 1. rewrite <- seq_shift, map_map. reflexivity. }
    rewrite El in H at 1. apply Permutation_sym in H. apply Permutation_sym, Permutation_map_inv in H. destruct H as (q & -> & Hq).
    exists q. assert (Ho : order (length l) q) by (apply Permutation_sym, Hq). split; [exact Ho|]. apply order_within in Ho. clear - Ho.
    induction q as [|i q IH]; [reflexivity|]. inversion Ho; subst. rewrite pick_cons, (nth_error_nth' l d) by assumption. cbn. f_equal. apply IH. assumption.
Qed.

Lemma pick_NoDup {A} q (l : list A) : within (length l) q -> NoDup q -> NoDup l -> NoDup (pick q l).
Proof.
  intros W Hq Hl. apply NoDup_nth_error. intros i j Hi E. rewrite pick_length in Hi by exact W. rewrite !nth_pick in E by exact W.
  destruct (nth_error q i) as [a|] eqn:Ea; [|apply nth_error_None in Ea; lia].
  assert (Wa : (a < length l)%nat) by (unfold within in W; rewrite Forall_forall in W; eapply W, nth_error_In, Ea).
  destruct (nth_error q j) as [b|] eqn:Eb.
  - assert (a = b). { apply (proj1 (NoDup_nth_error l) Hl); [exact Wa|exact E]. } subst b. apply (proj1 (NoDup_nth_error q) Hq); [lia|congruence].
  - apply nth_error_None in E. lia.
Qed.
Lemma In_pick {A} q (l : list A) x : In x (pick q l) <-> exists i, In i q /\ nth_error l i = Some x.
Proof.
  unfold pick. rewrite in_flat_map. split; intros (i & Hi & H); exists i; (split; [exact Hi|]).
  - destruct (nth_error l i); [destruct H as [->|[]]; reflexivity|contradiction].
  - rewrite H. left. reflexivity.
Qed.

Lemma positions_nodup v fl : NoDup (positions v fl).
Proof.
  unfold positions, where_true. rewrite map_length. apply NoDup_map_on.
  - apply NoDup_filter. generalize 0%nat, (map (Z.eqb v) fl). intros k l. 
    assert (G : forall (m : list bool) k, NoDup (map fst (combine (seq k (length fl)) m))).
    { intros m. generalize (length fl). intros c. revert m. induction c as [|c IH]; intros [|b m] k0; cbn; constructor; auto.
      intros Hin. apply in_map_iff in Hin. destruct Hin as ([a b0] & <- & Hin). apply in_combine_l, in_seq in Hin. cbn in Hin. lia. }
    eapply NoDup_map_inv, G.
  - intros a b Ha Hb E. apply filter_In in Ha, Hb. destruct Ha as [Ha _], Hb as [Hb _].
    assert (G : forall (m : list bool) k c a b, In a (combine (seq k c) m) -> In b (combine (seq k c) m) -> fst a = fst b -> a = b).
    { clear. induction m as [|x m IH]; intros k [|c] a b Ha Hb E; cbn in Ha, Hb; try contradiction. destruct Ha as [<-|Ha], Hb as [<-|Hb]; auto.
      - destruct b. apply in_combine_l, in_seq in Hb. cbn in E. lia.
      - destruct a. apply in_combine_l, in_seq in Ha. cbn in E. lia.
      - eapply IH; eauto. }
    eapply G; eauto.
Qed.
Lemma dofs_positions v fl k D : length fl = k -> dofs_with v fl k = Ok D -> D = positions v fl.
Proof.
  intros Hk H. unfold dofs_with in H. apply gather_pick in H. destruct H as [W ->]. rewrite seq_length in W. clear Hk.
  induction W as [|i q Hi W IH]; [reflexivity|]. rewrite pick_cons, (nth_error_nth' _ 0%nat) by (rewrite seq_length; exact Hi). rewrite seq_nth by exact Hi. cbn. f_equal. exact IH.
Qed.
Lemma positions_pick v c fl : order (length fl) c -> Permutation (pick (positions v (pick c fl)) c) (positions v fl).
Proof.
  intros Hc. pose proof (order_within _ _ Hc) as W. assert (Lc : length (pick c fl) = length c) by (apply pick_length, W).
  assert (Wp : within (length c) (positions v (pick c fl))).
  { unfold within. apply Forall_forall. intros i Hi. apply positions_lt in Hi. lia. }
  apply NoDup_Permutation.
  - apply pick_NoDup; [exact Wp|apply positions_nodup|eapply order_NoDup, Hc].
  - apply positions_nodup.
  - intros x. rewrite In_pick. split.
    + intros (i & Hi & Hx). apply positions_In in Hi. rewrite nth_pick, Hx in Hi by exact W. apply positions_In. exact Hi.
    + intros Hx. apply positions_In in Hx. assert (x < length fl)%nat by (apply nth_error_Some; congruence).
      destruct (order_at _ _ _ Hc H) as [i Hi]. exists i. split; [|exact Hi]. apply positions_In. rewrite nth_pick, Hi by exact W. exact Hx.
Qed.

Section Build.
  Variable ax : v3 nat.
  Hypothesis Hax : axes ax.
  Notation turn := (turn ax).
  Notation turn_row := (turn_row ax).
  Notation comps := (comps ax).
  Variable argsortZ : list Z -> list nat.
  Variable rho : Z -> Z.
  Variables m m' : model R.
  Variables ns ns' : list (Z * v3 R).
  Variables bs bs' : list (Z * list Z).
  Variables fs fs' : list (Z * list R).
  Hypothesis HA : argsort_ok argsortZ.
  Hypothesis Hd : tables m ns bs fs.
  Hypothesis Hd' : tables m' ns' bs' fs'.
  Hypothesis Hre : renumbered ax rho m m' ns ns' bs bs' fs fs'.

  Lemma ren_fst {A} (f : A -> A) (rows : list (Z * A)) : map fst (renamed rho f rows) = map rho (map fst rows).
  Proof. unfold renamed. rewrite !map_map. reflexivity. Qed.
  Lemma matches_ren {A} (f : A -> A) (rows rows' : list (Z * A)) :
    Permutation rows' (renamed rho f rows) -> matches ns rows -> matches ns' rows'.
  Proof.
    intros Hp [Hnd Hin]. destruct Hre as (Hi & Hn & _). split.
    - eapply Permutation_NoDup; [apply Permutation_sym, Permutation_map, Hp|]. rewrite ren_fst.
      apply NoDup_map_on; auto.
    - intros l Hl. eapply Permutation_in in Hl; [|apply Permutation_map, Hp].
      eapply Permutation_in; [apply Permutation_sym, Permutation_map, Hn|].
      rewrite ren_fst. rewrite ren_fst in Hl. apply in_map_iff in Hl. destruct Hl as (x & <- & Hx). apply in_map. auto.
  Qed.
  Lemma row_for_ren {A} (f : A -> A) (rows rows' : list (Z * A)) d l : f d = d ->
    Permutation rows' (renamed rho f rows) -> matches ns rows -> In l (map fst ns) ->
    row_for rows' d (rho l) = f (row_for rows d l).
  Proof.
    intros Hfd Hp Hm Hl. destruct (matches_ren _ _ _ Hp Hm) as [Hnd' _]. destruct Hm as [Hnd Hin].
    destruct (in_dec Z.eq_dec l (map fst rows)) as [Hi|Hi].
    - apply in_map_iff in Hi. destruct Hi as ([l0 v] & E & Hi). cbn in E. subst l0.
      rewrite (row_for_In rows d l v Hnd Hi). apply row_for_In; auto.
      eapply Permutation_in; [apply Permutation_sym, Hp|]. unfold renamed. apply in_map_iff. exists (l, v). auto.
    - rewrite (row_for_notin rows) by exact Hi. rewrite Hfd. apply row_for_notin. intros Hx.
      eapply Permutation_in in Hx; [|apply Permutation_map, Hp]. rewrite ren_fst in Hx.
      apply in_map_iff in Hx. destruct Hx as (l1 & E & Hx). apply Hi. rewrite <- (proj1 Hre l1 l); auto.
  Qed.
  (** A table of rows for all nodes, in both models. *)
  Lemma rows_for_ren {A} (f : A -> A) (rows rows' : list (Z * A)) d sg ls : f d = d ->
    Permutation rows' (renamed rho f rows) -> matches ns rows -> incl ls (map fst ns) ->
    map snd (rows_for rows' d (map rho (pick sg ls))) = map f (pick sg (map snd (rows_for rows d ls))).
  Proof.
    intros Hfd Hp Hm Hi. unfold rows_for. rewrite !map_map, pick_map, map_map. cbn [snd]. apply map_ext_in. intros l Hl.
    apply row_for_ren; auto. apply Hi. apply In_pick in Hl. destruct Hl as (i & _ & Hl). eapply nth_error_In, Hl.
  Qed.
  Lemma row_for_prop {A} (P : A -> Prop) (rows : list (Z * A)) d l : P d -> (forall r, In r (map snd rows) -> P r) -> P (row_for rows d l).
  Proof.
    intros Hd0 H. induction rows as [|[a v] rows IH]; [exact Hd0|]. cbn. destruct (Z.eqb l a); [apply H; left; reflexivity|]. apply IH. intros r Hr. apply H. right. exact Hr.
  Qed.

  Lemma vflat_zero k : vflat (zeros3 (F := R) k) = repeat 0 (3 * k).
  Proof.
    unfold zeros3, vflat. induction k as [|k IH]; [reflexivity|]. cbn [repeat flat_map]. rewrite IH. replace (3 * S k)%nat with (3 + 3 * k)%nat by lia. reflexivity.
  Qed.

  Lemma build_number mb : build argsortZ m = Ok mb ->
    exists mb' nh sg p D1 D1', build argsortZ m' = Ok mb' /\ m_nodes mb = Some nh /\ NoDup (n_labels nh) /\
      (forall a b, In a (n_labels nh) -> In b (n_labels nh) -> rho a = rho b -> a = b) /\ order (length (n_labels nh)) sg /\
      unknown_order ax sg p D1 D1' /\ NoDup D1 /\ within (3 * length (n_labels nh)) D1' /\ length D1' = length D1 /\
      (renumbered_settings p (m_set m) (m_set m') -> renumbered_settings p (m_set mb) (m_set mb')) /\
      (renumbered_settings p (m_set mb) (m_set mb') -> model_num ax rho (n_labels nh) sg p D1 D1' mb mb') /\
      exists u u', m_built mb = Some u /\ m_built mb' = Some u' /\ u_lpf_end u = [] /\ u_lpf_end u' = [] /\
        m_nodes mb' = Some (NodeH (map rho (pick sg (n_labels nh))) (map turn (pick sg (n_coords nh)))) /\
        Forall2 (Sim ax (n_labels nh) sg p D1 D1') (u_R u) (u_R u') /\ Sim ax (n_labels nh) sg p D1 D1' (u_an u) (u_an u').
  Proof.
    intros H. pose proof Hd as (Dn & Db & Df & D2 & Dnd & D3 & D4).
    pose proof Hd' as (Dn' & Db' & Df' & D2' & Dnd' & D3' & D4').
    destruct (build_tables _ _ _ _ _ _ HA Dn Db Df Dnd D2 H)
      as (Mb & Mf & s1 & w & Hs1 & Hp1 & Hsort1 & Hb1 & Hw1 & Hw2 & Hw3 & Hf1 & Hel1).
    pose proof Hre as (Hinj & Rn & Rb & Rf & Re & Rb0 & Rw & Rst).
    assert (Hfe : exists fh0 fh0' eh0, m_forces m = Some fh0 /\ m_forces m' = Some fh0' /\ e_width fh0' = e_width fh0 /\ m_elems m = Some eh0).
    { destruct (build_inv _ _ _ H) as (nh0 & eh & nh & bh & fh & D0 & D1 & an & _ & Eel & _ & _ & Eo & _).
      destruct (m_forces m) as [h|]; [|discriminate]. destruct (m_forces m') as [h'|]; [|discriminate].
      cbn in Rw. injection Rw as Rw. exists h, h', eh. auto. }
    destruct Hfe as (fh0 & fh0' & eh0 & Efh & Efh' & Ew & Eeh). rewrite Eeh in Re. cbn [option_map] in Re.
    assert (Hwm : (w mod 3 = 0)%nat) by (rewrite <- (Hw2 _ Efh); apply D4, Efh).
    destruct (build_total argsortZ m' ns' bs' fs' HA Dn' Db' Df' Dnd' D2') as [mb' H'];
      [congruence|congruence|exact Rb0|exact D3'|eapply matches_ren; eauto|eapply matches_ren; eauto|].
    destruct (build_tables _ _ _ _ _ _ HA Dn' Db' Df' Dnd' D2' H')
      as (Mb' & Mf' & s2 & w' & Hs2 & Hp2 & Hsort2 & Hb2 & Hw1' & Hw2' & Hw3' & Hf2 & Hel2).
    assert (Eww : w' = w) by (rewrite <- (Hw2 _ Efh), <- (Hw2' _ Efh'); exact Ew). subst w'.
    assert (Hpp : Permutation s2 (renamed rho turn s1)).
    { rewrite Hp2, Rn. unfold renamed. apply Permutation_map, Permutation_sym, Hp1. }
    destruct (perm_pick _ _ Hpp) as (sg & Hsg & Es2). unfold renamed in Hsg, Es2. rewrite map_length in Hsg. rewrite pick_map in Es2.
    assert (Ef2 : map fst s2 = map rho (pick sg (map fst s1))) by (rewrite Es2, pick_map, !map_map; reflexivity).
    assert (Hin1 : incl (map fst s1) (map fst ns)) by (intros l; apply Permutation_in, Permutation_map, Hp1).
    assert (Hnd1 : NoDup (map fst s1)) by (eapply Permutation_NoDup; [apply Permutation_sym, Permutation_map, Hp1|exact Dnd]).
    set (k := length s1) in *.
    assert (Wsg : within k sg) by (apply order_within, Hsg).
    assert (Lsg : length sg = k) by (apply order_length, Hsg).
    set (B := map snd (rows_for bs [1;1;1]%Z (map fst s1))).
    assert (EB' : map snd (rows_for bs' [1;1;1]%Z (map fst s2)) = map turn_row (pick sg B)).
    { rewrite Ef2. apply rows_for_ren; auto. apply (turn_row_repeat ax Hax 1%Z 3). reflexivity. }
    assert (LB : length B = k) by (unfold B, rows_for; rewrite !map_length; reflexivity).
    assert (FB : Forall (fun r => length r = 3%nat) B).
    { unfold B, rows_for. rewrite map_map. apply Forall_map, Forall_forall. intros l _. cbn [snd]. apply row_for_prop; [reflexivity|exact D3]. }
    set (C := map snd (rows_for fs (repeat 0 w) (map fst s1))).
    assert (EC' : map snd (rows_for fs' (repeat 0 w) (map fst s2)) = map turn_row (pick sg C)).
    { rewrite Ef2. apply rows_for_ren; auto. apply (turn_row_repeat ax Hax), Hwm. }
    assert (LC : length C = k) by (unfold C, rows_for; rewrite !map_length; reflexivity).
    assert (FC : Forall (fun r => length r = w) C).
    { unfold C, rows_for. rewrite map_map. apply Forall_map, Forall_forall. intros l _. cbn [snd]. apply row_for_prop; [apply repeat_length|exact Hw1]. }
    pose proof H as HB. pose proof H' as HB'. apply build_inv in H. apply build_inv in H'.
    destruct H as (nh0 & eh & nh & bh & fh & D0 & D1 & an & E1 & E2 & Ef & Eb & Eo & C1 & C2 & Hd0 & Hd1 & Han & Em).
    destruct H' as (nh0' & eh' & nh' & bh' & fh' & D0' & D1' & an' & E1' & E2' & Ef' & Eb' & Eo' & C1' & C2' & Hd0' & Hd1' & Han' & Em').
    cbv zeta in *. assert (eh0 = eh) by congruence. subst eh0. assert (eh' = renamed_elems rho eh) by congruence. subst eh'.
    assert (L0 : length (n_labels nh0) = k).
    { rewrite E1 in Dn. destruct Dn as [-> _]. rewrite map_length. unfold k. apply Permutation_length, Permutation_sym, Hp1. }
    assert (L0' : length (n_labels nh0') = k).
    { rewrite E1' in Dn'. destruct Dn' as [-> _]. rewrite map_length. rewrite <- (Permutation_length Hp2), (Permutation_length Hpp). unfold renamed. apply map_length. }
    clear Dn Dn' Db Db' Df Df' C1 C2 C1' C2' Eb Eb' Eo Eo' Ef Ef'.
    rewrite Em in Hb1, Hf1, Hs1. rewrite Em' in Hb2, Hf2, Hs2. cbn [m_bounds m_forces m_nodes] in *. destruct Hs1 as [Hs1 Hs1'], Hs2 as [Hs2 Hs2'].
    assert (Lk2 : (2 <= k)%nat) by (unfold k; rewrite (Permutation_length Hp1); exact D2).
    assert (Euv : uv_flatten (b_vals bh) = concat B).
    { destruct Hb1 as [_ Hb1]. destruct (b_vals bh) as [l1|w1 r1].
      - exfalso. destruct Hb1 as (n & Hb1). apply (f_equal (@length _)) in Hb1. unfold rows_for in Hb1. rewrite !map_length in Hb1. cbn in Hb1. unfold k in Lk2. lia.
      - destruct Hb1 as [-> _]. reflexivity. }
    assert (Euv' : uv_flatten (b_vals bh') = pick (comps sg) (concat B)).
    { rewrite <- (concat_turn ax Hax) by exact FB. rewrite <- EB'. destruct Hb2 as [_ Hb2]. destruct (b_vals bh') as [l1|w1 r1].
      - exfalso. destruct Hb2 as (n & Hb2). apply (f_equal (@length _)) in Hb2. unfold rows_for in Hb2. rewrite Ef2, !map_length, pick_length, Lsg in Hb2 by (rewrite map_length; exact Wsg). cbn in Hb2. lia.
      - destruct Hb2 as [-> _]. reflexivity. }
    rewrite Euv, L0 in Hd0, Hd1. rewrite Euv', L0' in Hd0', Hd1'.
    assert (LcB : length (concat B) = (3 * k)%nat).
    { rewrite <- LB. clear - FB. induction FB as [|r l Hr F IH]; cbn [concat length]; [reflexivity|]. rewrite app_length, IH. lia. }
    assert (Hcm : order (3 * k) (comps sg)) by (apply comps_order; assumption).
    assert (LcB' : length (pick (comps sg) (concat B)) = (3 * k)%nat) by (rewrite pick_length, (order_length _ _ Hcm) by (rewrite LcB; apply order_within, Hcm); reflexivity).
    apply dofs_positions in Hd0; [|exact LcB]. apply dofs_positions in Hd1; [|exact LcB]. apply dofs_positions in Hd0'; [|exact LcB']. apply dofs_positions in Hd1'; [|exact LcB'].
    rewrite <- LcB in Hcm. pose proof (positions_pick 0 _ _ Hcm) as P0. pose proof (positions_pick 1 _ _ Hcm) as P1. rewrite <- Hd0, <- Hd0' in P0. rewrite <- Hd1, <- Hd1' in P1.
    destruct (perm_pick _ _ P1) as (p & Hp & Ep).
    assert (WD' : within (3 * k) D1').
    { rewrite Hd1'. unfold within. apply Forall_forall. intros i Hi. apply positions_lt in Hi. lia. }
    assert (LD' : length D1' = length D1).
    { rewrite <- (Permutation_length P1). symmetry. apply pick_length. rewrite (order_length _ _ Hcm), LcB. exact WD'. }
    assert (Hu : unknown_order ax sg p D1 D1') by (split; assumption).
    assert (Ln : n_labels nh = map fst s1) by exact Hs1.
    assert (Lnn : length (n_labels nh) = k) by (rewrite Ln, map_length; reflexivity).
    assert (Erows : e_rows fh = C) by apply Hf1.
    assert (Erows' : e_rows fh' = map turn_row (pick sg C)) by (rewrite <- EC'; apply Hf2).
    rewrite L0 in Han. rewrite L0', Rst in Han'. cbn [renamed_elems el_mtype el_labels] in Han', Em'.
    set (nst := if existsb (Z.eqb 2) (el_mtype eh) then 2%Z else s_nstatev (m_set m)) in *.
    unfold analysis_build in Han, Han'. apply bind_ok in Han. destruct Han as (ur & Hg & Han). apply bind_ok in Han'. destruct Han' as (ur' & Hg' & Han').
    assert (Zg : forall D x, gather (vflat (zeros3 (F := R) k)) D = Ok x -> x = repeat 0 (length D)).
    { intros D x Hx. rewrite vflat_zero in Hx. apply gather_pick in Hx. destruct Hx as [W ->]. apply pick_repeat. rewrite repeat_length in W. exact W. }
    apply Zg in Hg. apply Zg in Hg'.
    assert (Hz3 : map turn (pick sg (zeros3 (F := R) k)) = zeros3 k).
    { unfold zeros3. rewrite pick_repeat, Lsg, map_rep by exact Wsg. f_equal. apply (turn_zero ax Hax). }
    assert (HzK : map (fun row => map (turn_block ax) (pick sg row)) (pick sg (zerosK (F := R) k)) = zerosK k).
    { unfold zerosK. rewrite pick_repeat, Lsg, map_rep, pick_repeat, Lsg, map_rep by exact Wsg. f_equal. f_equal. apply (tblock_zero ax Hax). }
    assert (Lp : length p = length D1) by (apply order_length, Hp). pose proof (order_within _ _ Hp) as Wp.
    assert (HS : forall fc fc' fo fo', rows_ok (n_labels nh) fc -> rows_ok (n_labels nh) fo -> fc' = map turn_row (pick sg fc) -> fo' = map turn_row (pick sg fo) ->
      Sim ax (n_labels nh) sg p D1 D1' (set_lpf f0 (set_fconst fc (set_forces fo an))) (set_lpf f0 (set_fconst fc' (set_forces fo' an')))).
    { intros fc fc' fo fo' Hfc Hfo Ec Eo. assert (Ea : an = An 1%Z (zeros3 k) (zeros3 k) (zeros3 k) (repeat f0 (3 * k)) (zerosK k) (repeat f0 (length (el_labels eh))) (repeat f0 (length (el_labels eh))) (repeat f0 (length (el_labels eh))) D0 D1 ur [] f0
         (if (0 <? nst)%Z then Some (repeat (repeat f0 (Z.to_nat nst)) (length (el_labels eh))) else None) [] 0%Z [] [] [] [] []) by congruence.
      assert (Ea' : an' = An 1%Z (zeros3 k) (zeros3 k) (zeros3 k) (repeat f0 (3 * k)) (zerosK k) (repeat f0 (length (el_labels eh))) (repeat f0 (length (el_labels eh))) (repeat f0 (length (el_labels eh))) D0' D1' ur' [] f0
         (if (0 <? nst)%Z then Some (repeat (repeat f0 (Z.to_nat nst)) (length (el_labels eh))) else None) [] 0%Z [] [] [] [] []) by congruence.
      rewrite Ea, Ea'. split; [reflexivity|]. split; [reflexivity|]. split.
      - unfold sizes, squareK. cbn [a_U a_U0 a_r a_K a_fconst a_forces a_Ured a_Vred set_lpf set_fconst set_forces]. rewrite Lnn. unfold zeros3, zerosK. rewrite !repeat_length.
        repeat (split; [first [reflexivity|assumption]|]). split. { split; [reflexivity|]. apply Forall_forall. intros r Hr. apply repeat_spec in Hr. subst r. apply repeat_length. }
        split; [assumption|]. split; [assumption|]. split; [rewrite Hg; apply repeat_length|left; reflexivity].
      - unfold renumbered_result.
        cbn [a_step a_U a_U0 a_r a_g a_K a_stretch a_force a_stress a_DOF0 a_DOF1 a_Ured a_Vred a_lpf a_state a_dVmax a_j a_Kred a_Kmod a_f0red a_fconst a_forces set_lpf set_fconst set_forces].
        rewrite Hz3, HzK, !pick_nil. do 4 (split; [reflexivity|]).
        split. { rewrite pick_repeat by (rewrite <- LcB; apply order_within, Hcm). rewrite (order_length _ _ Hcm), LcB. reflexivity. }
        do 7 (split; [reflexivity|]). split. { split; [reflexivity|]. left. auto. } split; [exact Hu|]. split; [exact P0|].
        split. { rewrite Hg, Hg', LD', pick_repeat by exact Wp. rewrite Lp. reflexivity. }
        do 3 (split; [reflexivity|]). split; assumption. }
    assert (Ok1 : rows_ok (n_labels nh) (repeat (repeat f0 3) k)).
    { right. rewrite repeat_length. split; [symmetry; exact Lnn|]. exists 3%nat. split; [reflexivity|]. apply Forall_forall. intros r Hr. apply repeat_spec in Hr. subst r. reflexivity. }
    assert (Ok2 : rows_ok (n_labels nh) C).
    { right. split; [rewrite LC; symmetry; exact Lnn|]. exists w. split; assumption. }
    assert (S0 : Sim ax (n_labels nh) sg p D1 D1' an an').
    { pose proof (HS [] [] [] [] (or_introl eq_refl) (or_introl eq_refl) (eq_sym (f_equal (map turn_row) (pick_nil sg))) (eq_sym (f_equal (map turn_row) (pick_nil sg)))) as HS0.
      replace (set_lpf f0 (set_fconst [] (set_forces [] an))) with an in HS0 by (injection Han as <-; reflexivity).
      replace (set_lpf f0 (set_fconst [] (set_forces [] an'))) with an' in HS0 by (injection Han' as <-; reflexivity). exact HS0. }
    assert (SR : Sim ax (n_labels nh) sg p D1 D1' (set_lpf f0 (set_fconst (repeat (repeat f0 3) k) (set_forces (e_rows fh) an))) (set_lpf f0 (set_fconst (repeat (repeat f0 3) k) (set_forces (e_rows fh') an')))).
    { rewrite Erows, Erows'. apply HS; auto. rewrite pick_repeat, Lsg, map_rep by exact Wsg. f_equal. symmetry. apply (turn_row_repeat ax Hax). reflexivity. }
    assert (Enh' : nh' = NodeH (map rho (pick sg (n_labels nh))) (map turn (pick sg (n_coords nh)))).
    { destruct nh' as [nl nc]. cbn [n_labels n_coords] in Hs2, Hs2'. rewrite Hs2, Hs2', Ef2, Hs1, Hs1', Es2, !pick_map, !map_map. reflexivity. }
    exists mb', nh, sg, p, D1, D1'. split; [exact HB'|]. split; [rewrite Em; reflexivity|]. split; [rewrite Ln; exact Hnd1|].
    split. { rewrite Ln. intros a b Ha Hb. apply Hinj; auto. }
    split; [rewrite Lnn; exact Hsg|]. split; [exact Hu|]. split; [rewrite Hd1; apply positions_nodup|]. split; [rewrite Lnn; exact WD'|]. split; [exact LD'|].
    split. { rewrite Em, Em'. cbn [m_set]. intros (Hfix & j0' & xl' & Es & Hjj & Hxx). split; [exact Hfix|]. exists j0', xl'. rewrite Es. cbn [with_nstatev with_unknowns s_nstatev] in *.
      split; [|split; assumption]. unfold nst. reflexivity. }
    split.
    - intros Hset. rewrite Em, Em' in *. cbn [m_set] in Hset. eexists _, _, nh, eh, fh, fh'. cbn [m_built m_nodes m_elems m_bounds m_forces m_set u_nnodes u_ndof1 u_an u_R u_lpf_end].
      do 3 (split; [reflexivity|]). split; [rewrite Enh'; reflexivity|]. split; [reflexivity|]. split; [rewrite Hs1', Lnn, map_length; reflexivity|].
      do 4 (split; [reflexivity|]). split; [rewrite Erows', Erows; reflexivity|]. split; [rewrite Erows; exact Ok2|]. split; [exact Hset|].
      rewrite L0, L0', LD'. do 3 (split; [reflexivity|]). split; [exact S0|]. split; [|reflexivity]. constructor; [exact SR|constructor].
    - rewrite Em, Em'. cbn [m_built m_nodes]. do 2 eexists. do 2 (split; [reflexivity|]). cbn [u_lpf_end u_R u_an]. do 2 (split; [reflexivity|]). split; [rewrite Enh'; reflexivity|].
      rewrite L0, L0'. split; [|exact S0]. constructor; [exact SR|constructor].
  Qed.
End Build.
