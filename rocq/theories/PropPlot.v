(** * Properties of the plots

    C36 data of plot_history and plot_path, C37 members, nodes and load arrows of
    plot_model, C38 frames of plot_movie, C43 colours of plot_model.
    Vocabulary: SpecPlot.v (and SpecRun.v for sessions).  All theorems except
    C43_auto hold for every number type. *)
From Coq Require Import List ZArith Bool Arith String Ascii Sorting.Sorted Permutation Reals Lra Lia.
Import ListNotations.
From Verif Require Import Num Vec Handlers Material Analysis Truss Equil Solver Run Plot EditFacts SpecMech SpecBuild
  SpecState SpecRun SpecPlot ListFacts ReachFacts SessionFacts PlotFacts SceneFacts MovieFacts NumR NumFix ExRun.

(** ** C36 history and path *)
(** plot_history returns exactly a leading 0 followed, for every result in order,
    by the requested quantity at the requested node; it fails iff some value does
    not exist. *)
Theorem C36_history : forall F (NF : Num F) (m : model F) nh u n1 n2 rest qx qy xx yy,
  m_nodes m = Some nh -> m_built m = Some u -> NoDup (n_labels nh) -> nameable qx -> nameable qy ->
  plot_history m (n1 :: n2 :: rest) (text qx) (text qy) = Ok (xx, yy) <->
  exists xs ys, xx = f0 :: xs /\ yy = f0 :: ys /\
    Forall2 (is_quantity (n_labels nh) qx n1) (u_R u) xs /\
    Forall2 (is_quantity (n_labels nh) qy n2) (u_R u) ys.
Proof. intros F NF m nh u * En Eu. unfold plot_history, with_results. rewrite En, Eu. apply p_history_iff. Qed.
Print Assumptions C36_history.

(** "Increments" gives the numbers 0, 1, ..., number of results. *)
Theorem C36_increments : forall F (NF : Num F) (m : model F) nh u n1 n2 rest qy xx yy,
  m_nodes m = Some nh -> m_built m = Some u -> NoDup (n_labels nh) -> nameable qy ->
  plot_history m (n1 :: n2 :: rest) "Increments" (text qy) = Ok (xx, yy) <->
  exists ys, xx = map (fun k => fofZ (Z.of_nat k)) (seq 0 (1 + List.length (u_R u))) /\ yy = f0 :: ys /\
    Forall2 (is_quantity (n_labels nh) qy n2) (u_R u) ys.
Proof. intros F NF m nh u * En Eu. unfold plot_history, with_results. rewrite En, Eu. apply p_history_inc. Qed.
Print Assumptions C36_increments.

(** Whatever the texts: one point per result and one more. *)
Theorem C36_lengths : forall F (NF : Num F) (m : model F) u nodes X Y xx yy,
  m_built m = Some u -> plot_history m nodes X Y = Ok (xx, yy) ->
  List.length xx = 1 + List.length (u_R u) /\ List.length yy = 1 + List.length (u_R u).
Proof.
  intros F NF m u nodes X Y xx yy Eu H. unfold plot_history, with_results in H. rewrite Eu in H.
  destruct (m_nodes m); [|discriminate]. apply p_history_lengths in H. tauto.
Qed.
Print Assumptions C36_lengths.

(** After build and any number of runs of a truss, every displacement, force or
    load factor history of existing nodes can be plotted. *)
Theorem C36_session : forall F (NF : Num F) argsortZ argsortF solve P m ns ms bs fs m1 n1 n2 qx qy,
  argsort_ok argsortZ -> described m ns ms bs fs -> session argsortF solve argsortZ P m m1 ->
  In n1 (map fst ns) -> In n2 (map fst ns) ->
  (forall k, qx <> RState k) -> (forall k, qy <> RState k) ->
  exists xx yy, plot_history m1 [n1; n2] (text qx) (text qy) = Ok (xx, yy).
Proof.
  intros F NF argsortZ argsortF solve P m ns ms bs fs m1 n1 n2 qx qy HA Hd HS H1 H2 Hx Hy.
  destruct (sound_session argsortZ argsortF solve _ _ _ _ _ _ _ HA Hd HS) as (mb & Hb & Hso).
  unfold sound in Hso. destruct Hso as (En & _ & _ & _ & _ & nh & eh & ub & u & Enb & _ & _ & Eu & _ & _ & Hc).
  cbv zeta in Hc. destruct Hc as (Ec & Ht & _ & _ & _ & _ & HR).
  destruct (build_reached _ _ _ _ _ _ _ HA Hd Hb) as (nh' & _ & _ & _ & ns' & En' & _ & _ & _ & Hns & Hp & _).
  rewrite Enb in En'. injection En' as <-. rewrite Enb in Hns. destruct Hns as [Hl _].
  destruct Ht as (Hnd & _). cbn [ctx_of c_labels] in Hnd.
  assert (Q : forall q n, (forall k, q <> RState k) -> In n (map fst ns) ->
    exists xs, Forall2 (is_quantity (n_labels nh) q n) (u_R u) xs).
  { intros q n Hq Hn. assert (Hin : In n (n_labels nh)).
    { rewrite Hl. eapply Permutation_in; [apply Permutation_map, Permutation_sym, Hp|exact Hn]. }
    apply In_nth_error in Hin. destruct Hin as (p & Hpn).
    assert (Hlt : p < List.length (n_labels nh)) by (apply nth_error_Some; congruence).
    assert (G : forall rs, (forall a, In a rs -> In a (u_R u)) -> exists xs, Forall2 (is_quantity (n_labels nh) q n) rs xs).
    { induction rs as [|r rs IH]; intros Hin; [exists []; constructor|].
      destruct IH as (xs & HF); [intros a Ha; apply Hin; now right|].
      destruct (HR r (Hin r (or_introl eq_refl))) as [[Hs _] _]. destruct Hs as (LU & _ & Lr & _).
      cbn [ctx_of c_labels] in LU, Lr.
      destruct (nth_error (a_U r) p) as [v|] eqn:Ev; [|apply nth_error_None in Ev; lia].
      destruct (nth_error (a_r r) p) as [w|] eqn:Ew; [|apply nth_error_None in Ew; lia].
      destruct q as [d|d| |k].
      - exists (comp_of v d :: xs). constructor; [|exact HF]. exists v. split; [exists p; auto|reflexivity].
      - exists (comp_of w d :: xs). constructor; [|exact HF]. exists w. split; [exists p; auto|reflexivity].
      - exists (a_lpf r :: xs). constructor; [reflexivity|exact HF].
      - exfalso. now apply (Hq k). }
    apply G. auto. }
  destruct (Q qx n1 Hx H1) as (xs & F1). destruct (Q qy n2 Hy H2) as (ys & F2).
  exists (f0 :: xs), (f0 :: ys). rewrite Enb in En.
  apply (C36_history F NF m1 nh u n1 n2 [] qx qy); auto.
  - destruct qx; try exact Logic.I. exfalso. now apply (Hx k).
  - destruct qy; try exact Logic.I. exfalso. now apply (Hy k).
  - exists xs, ys. auto.
Qed.
Print Assumptions C36_session.

(** Nothing is plotted before the model was built. *)
Theorem C36_not_built : forall F (NF : Num F) listdir (m : model F),
  m_built m = None ->
  (forall nodes X Y, plot_history m nodes X Y = Err AttributeError) /\
  (forall path is_range inc Y, plot_path m path is_range inc Y = Err AttributeError) /\
  (forall v c scale cbar inc, plot_model m v c scale cbar inc = Err AttributeError) /\
  (forall v c scale cbar incs, plot_movie listdir m v c scale cbar incs = Err AttributeError).
Proof.
  intros F NF listdir m H. unfold plot_history, plot_path, plot_model, plot_movie, with_results. rewrite H. auto.
Qed.
Print Assumptions C36_not_built.

(** plot_path returns one value per node of the path, in order. *)
Theorem C36_path : forall F (NF : Num F) (m : model F) nh u path is_range inc q xd yd,
  m_nodes m = Some nh -> m_built m = Some u -> NoDup (n_labels nh) -> nameable q ->
  plot_path m path is_range inc (text q) = Ok (xd, yd) <->
  path <> [] /\ path_axis is_range path xd /\
  exists r, py_get (u_R u) inc = Ok r /\ Forall2 (fun n y => is_quantity (n_labels nh) q n r y) path yd.
Proof. intros F NF m nh u * En Eu. unfold plot_path, with_results. rewrite En, Eu. apply p_path_iff. Qed.
Print Assumptions C36_path.

(** ** C37 the plot of the model *)
(** One marker per node, at its deformed position in the view. *)
Theorem C37_nodes : forall F (NF : Num F) (m : model F) nh u v c scale cbar inc sc,
  m_nodes m = Some nh -> m_built m = Some u -> List.length (n_coords nh) = List.length (n_labels nh) ->
  (- Z.of_nat (List.length (u_R u)) <= inc)%Z ->
  plot_model m v c scale cbar inc = Ok sc ->
  exists k r, shows (u_R u) inc k r /\ sc_inc sc = (if Nat.eqb k 0 then None else Some (Z.of_nat k)) /\
    List.length (sc_nodes sc) = List.length (n_labels nh) /\
    forall p n, nth_error (n_labels nh) p = Some n ->
      exists P, deformed (n_labels nh) (n_coords nh) r n P /\ nth_error (sc_nodes sc) p = Some (shown v P).
Proof.
  intros F NF m nh u v c scale cbar inc sc En Eu Hlen Hinc H. unfold plot_model, with_results in H. rewrite En, Eu in H.
  destruct (m_elems m) as [eh|]; [|discriminate]. destruct (m_forces m) as [fh|]; [|discriminate].
  destruct (p_model_parts _ _ _ _ _ _ _ _ _ _ H Hinc) as (k & r & con & f & X & ms & Hsh & Hv & _ & _ & HX & _ & ->).
  apply add_rows_spec in HX. destruct HX as (L1 & L2 & HX).
  exists k, r. split; [exact Hsh|]. split; [reflexivity|]. cbn [sc_nodes]. split; [rewrite map_length; lia|].
  intros p n Hn. assert (Hp : p < List.length (n_labels nh)) by (apply nth_error_Some; congruence).
  destruct (nth_error X p) as [x|] eqn:Ex; [|apply nth_error_None in Ex; lia].
  destruct (proj1 (HX p x) Ex) as (Y & U & HY & HU & ->).
  exists (vadd Y U). split.
  - exists Y, U. split; [exists p; auto|]. split; [exists p; auto|reflexivity].
  - rewrite nth_error_map, Ex. cbn. now rewrite project_shown.
Qed.
Print Assumptions C37_nodes.

(** If the node labels are 1, ..., n, the k-th drawn member joins the deformed
    positions of the two nodes of the k-th element. *)
Theorem C37_members : forall F (NF : Num F) (m : model F) nh eh u v c scale cbar inc sc,
  m_nodes m = Some nh -> m_elems m = Some eh -> m_built m = Some u ->
  List.length (n_coords nh) = List.length (n_labels nh) ->
  counting (n_labels nh) -> (forall a b, In (a, b) (el_conns eh) -> In a (n_labels nh) /\ In b (n_labels nh)) ->
  (- Z.of_nat (List.length (u_R u)) <= inc)%Z ->
  plot_model m v c scale cbar inc = Ok sc ->
  exists j r, shows (u_R u) inc j r /\
    List.length (sc_members sc) = List.length (el_conns eh) /\
    forall k a b, nth_error (el_conns eh) k = Some (a, b) ->
      exists A B colour, deformed (n_labels nh) (n_coords nh) r a A /\ deformed (n_labels nh) (n_coords nh) r b B /\
        nth_error (sc_members sc) k = Some (shown v A, shown v B, colour).
Proof.
  intros F NF m nh eh u v c scale cbar inc sc En Ee Eu Hlen Hc Hin Hinc H.
  unfold plot_model, with_results in H. rewrite En, Ee, Eu in H.
  destruct (m_forces m) as [fh|]; [|discriminate].
  destruct (p_model_parts _ _ _ _ _ _ _ _ _ _ H Hinc) as (j & r & con & f & X & ms & Hsh & Hv & _ & _ & HX & Hm & ->).
  apply add_rows_spec in HX. destruct HX as (L1 & L2 & HX).
  apply draw_members_spec in Hm. destruct Hm as [Lm Hm].
  exists j, r. split; [exact Hsh|]. split; [exact Lm|]. intros k a b Hk.
  assert (P : forall n x, In n (n_labels nh) -> py_get X (n - 1) = Ok x -> deformed (n_labels nh) (n_coords nh) r n x).
  { intros n x Hn Hx. unfold counting in Hc. rewrite Hc in Hn. apply in_map_iff in Hn. destruct Hn as (q & <- & Hq).
    apply in_seq in Hq.
    assert (Hpos : nth_error (n_labels nh) (q - 1) = Some (Z.of_nat q)).
    { rewrite Hc, nth_error_map, nth_error_seq. destruct (Nat.ltb_spec (q - 1) (List.length (n_labels nh))); [|lia].
      cbn. do 2 f_equal. lia. }
    apply py_get_nth in Hx. destruct Hx as (p & Hp & Hx). rewrite py_pos_nonneg in Hp by lia. injection Hp as <-.
    replace (Z.to_nat (Z.of_nat q - 1)) with (q - 1) in Hx by lia.
    destruct (proj1 (HX _ _) Hx) as (Y & U & HY & HU & ->).
    exists Y, U. split; [exists (q - 1); auto|]. split; [exists (q - 1); auto|reflexivity]. }
  destruct (Hm k a b Hk) as ([[x1 x2] col] & Ex & A & B & HA & HB & E1 & E2 & _). cbn in E1, E2. subst x1 x2.
  destruct (Hin a b (nth_error_In _ _ Hk)) as [Ia Ib].
  exists A, B, col. split; [now apply P|]. split; [now apply P|exact Ex].
Qed.
Print Assumptions C37_members.

(** For any other labels: the end of a member at node [a] is drawn at the node
    stored in row a-1, whatever its label is. *)
Theorem C37_members_row : forall F (NF : Num F) (m : model F) nh eh u v c scale cbar inc sc,
  m_nodes m = Some nh -> m_elems m = Some eh -> m_built m = Some u ->
  List.length (n_coords nh) = List.length (n_labels nh) ->
  (- Z.of_nat (List.length (u_R u)) <= inc)%Z ->
  plot_model m v c scale cbar inc = Ok sc ->
  exists j r, shows (u_R u) inc j r /\
    forall k a b, nth_error (el_conns eh) k = Some (a, b) -> (1 <= a)%Z -> (1 <= b)%Z ->
      exists a' b' A B colour,
        nth_error (n_labels nh) (Z.to_nat (a - 1)) = Some a' /\ nth_error (n_labels nh) (Z.to_nat (b - 1)) = Some b' /\
        deformed (n_labels nh) (n_coords nh) r a' A /\ deformed (n_labels nh) (n_coords nh) r b' B /\
        nth_error (sc_members sc) k = Some (shown v A, shown v B, colour).
Proof.
  intros F NF m nh eh u v c scale cbar inc sc En Ee Eu Hlen Hinc H.
  unfold plot_model, with_results in H. rewrite En, Ee, Eu in H.
  destruct (m_forces m) as [fh|]; [|discriminate].
  destruct (p_model_parts _ _ _ _ _ _ _ _ _ _ H Hinc) as (j & r & con & f & X & ms & Hsh & Hv & _ & _ & HX & Hm & ->).
  apply add_rows_spec in HX. destruct HX as (L1 & L2 & HX).
  apply draw_members_spec in Hm. destruct Hm as [Lm Hm].
  exists j, r. split; [exact Hsh|]. intros k a b Hk Ha Hb.
  assert (P : forall n x, (1 <= n)%Z -> py_get X (n - 1) = Ok x ->
    exists l, nth_error (n_labels nh) (Z.to_nat (n - 1)) = Some l /\ deformed (n_labels nh) (n_coords nh) r l x).
  { intros n x Hn Hx. apply py_get_nth in Hx. destruct Hx as (p & Hp & Hx).
    assert (p = Z.to_nat (n - 1)).
    { unfold py_pos in Hp. destruct (Z.leb_spec 0 (n - 1)); [|lia]. cbn [andb] in Hp.
      destruct (Z.ltb_spec (n - 1) (Z.of_nat (List.length X))); [now injection Hp as <-|].
      destruct (Z.ltb_spec (n - 1) 0); [lia|]. rewrite andb_false_r in Hp. discriminate. }
    subst p. destruct (proj1 (HX _ _) Hx) as (Y & U & HY & HU & ->).
    destruct (nth_error (n_labels nh) (Z.to_nat (n - 1))) as [l|] eqn:El.
    - exists l. split; [reflexivity|]. exists Y, U. split; [eexists; eauto|]. split; [eexists; eauto|reflexivity].
    - apply nth_error_None in El. assert (Z.to_nat (n - 1) < List.length (n_coords nh)) by (apply nth_error_Some; congruence). lia. }
  destruct (Hm k a b Hk) as ([[x1 x2] col] & Ex & A & B & HA & HB & E1 & E2 & _). cbn in E1, E2. subst x1 x2.
  destruct (P _ _ Ha HA) as (a' & Na & Da). destruct (P _ _ Hb HB) as (b' & Nb & Db).
  exists a', b', A, B, col. auto.
Qed.
Print Assumptions C37_members_row.

(** A member at a node whose label exceeds the number of nodes cannot be drawn:
    no plot of the model succeeds. *)
Theorem C37_members_raise : forall F (NF : Num F) (m : model F) nh eh u v c scale cbar inc sc a b,
  m_nodes m = Some nh -> m_elems m = Some eh -> m_built m = Some u ->
  List.length (n_coords nh) = List.length (n_labels nh) ->
  (- Z.of_nat (List.length (u_R u)) <= inc)%Z ->
  In (a, b) (el_conns eh) -> (Z.of_nat (List.length (n_labels nh)) < a)%Z ->
  plot_model m v c scale cbar inc <> Ok sc.
Proof.
  intros F NF m nh eh u v c scale cbar inc sc a b En Ee Eu Hlen Hinc Hab Ha H.
  unfold plot_model, with_results in H. rewrite En, Ee, Eu in H.
  destruct (m_forces m) as [fh|]; [|discriminate].
  destruct (p_model_parts _ _ _ _ _ _ _ _ _ _ H Hinc) as (j & r & con & f & X & ms & Hsh & Hv & _ & _ & HX & Hm & ->).
  apply add_rows_spec in HX. destruct HX as (L1 & L2 & HX).
  apply draw_members_spec in Hm. destruct Hm as [Lm Hm].
  apply In_nth_error in Hab. destruct Hab as (k & Hk).
  destruct (Hm k a b Hk) as (x & _ & A & B & HA & _). apply py_get_nth in HA. destruct HA as (p & Hp & _).
  unfold py_pos in Hp. destruct (Z.ltb_spec (a - 1) (Z.of_nat (List.length X))); [lia|].
  destruct (Z.ltb_spec (a - 1) 0); [lia|]. rewrite !andb_false_r in Hp. discriminate.
Qed.
Print Assumptions C37_members_raise.

(** The arrows are exactly the nonzero load components in the view: each starts
    at the deformed position of its node and has the scaled load as its length. *)
Theorem C37_arrows : forall F (NF : Num F) (m : model F) nh fh u v c scale cbar inc sc,
  m_nodes m = Some nh -> m_forces m = Some fh -> m_built m = Some u ->
  List.length (n_coords nh) = List.length (n_labels nh) -> List.length (e_rows fh) = List.length (n_labels nh) ->
  NoDup (n_labels nh) ->
  (- Z.of_nat (List.length (u_R u)) <= inc)%Z ->
  plot_model m v c scale cbar inc = Ok sc ->
  exists k r, shows (u_R u) inc k r /\
    forall start vec, In (start, vec) (sc_arrows sc) <->
      exists n P d x, deformed (n_labels nh) (n_coords nh) r n P /\ load_on (n_labels nh) (e_rows fh) k r n d x /\
        sees v d /\ feqb x f0 = false /\ start = shown v P /\ vec = shown v (along_ax d (fmul scale x)).
Proof.
  intros F NF m nh fh u v c scale cbar inc sc En Ef Eu Hlen Hrows Hnd Hinc H.
  unfold plot_model, with_results in H. rewrite En, Ef, Eu in H.
  destruct (m_elems m) as [eh|]; [|discriminate].
  destruct (p_model_parts _ _ _ _ _ _ _ _ _ _ H Hinc) as (k & r & con & f & X & ms & Hsh & Hv & _ & Hf & HX & _ & ->).
  apply add_rows_spec in HX. destruct HX as (L1 & L2 & HX).
  apply total_load_spec in Hf. destruct Hf as (M1 & M2 & Hf).
  exists k, r. split; [exact Hsh|]. intros start vec. cbn [sc_arrows]. rewrite in_flat_map.
  assert (An : forall d, axis_num d < 3) by (intros []; cbn; lia).
  split.
  - intros ([fr P] & Hc & Ha). cbn [fst snd] in Ha. apply In_nth_error in Hc. destruct Hc as (p & Hp).
    rewrite nth_error_combine in Hp. destruct (nth_error f p) as [fr'|] eqn:E1; [|discriminate].
    destruct (nth_error X p) as [P'|] eqn:E2; [|discriminate]. injection Hp as -> ->.
    apply node_arrows_spec in Ha; [|exact Hv]. destruct Ha as (d & Hs & Hz & E). injection E as -> ->.
    assert (Hlt : p < List.length f) by (apply nth_error_Some; congruence).
    destruct (nth_error (n_labels nh) p) as [n|] eqn:E3; [|apply nth_error_None in E3; lia].
    destruct (nth_error (a_fconst r) p) as [fc|] eqn:E4; [|apply nth_error_None in E4; lia].
    destruct (nth_error (e_rows fh) p) as [row|] eqn:E5; [|apply nth_error_None in E5; lia].
    destruct (Hf p fc row E4 E5) as (fr' & E6 & _ & Hd). rewrite E1 in E6. injection E6 as <-.
    destruct (proj1 (HX _ _) E2) as (Y & U & HY & HU & ->).
    exists n, (vadd Y U), d, (nth (axis_num d) fr f0).
    split; [exists Y, U; split; [exists p; auto|]; split; [exists p; auto|reflexivity]|].
    split; [exists fc, row; split; [exists p; auto|]; split; [exists p; auto|apply Hd, An]|]. auto.
  - intros (n & P & d & x & (Y & U & (p & Hn & HY) & (p1 & Hn1 & HU) & ->) & (fc & row & (p2 & Hn2 & Hfc) & (p3 & Hn3 & Hrow) & Ex) & Hs & Hz & -> & ->).
    assert (p1 = p) by (eapply NoDup_nth_inj; eauto). assert (p2 = p) by (eapply NoDup_nth_inj; eauto).
    assert (p3 = p) by (eapply NoDup_nth_inj; eauto). subst p1 p2 p3.
    destruct (Hf p fc row Hfc Hrow) as (fr & Efr & _ & Hd).
    assert (EX : nth_error X p = Some (vadd Y U)) by (apply HX; eauto).
    exists (fr, vadd Y U). split.
    + apply (nth_error_In _ p). rewrite nth_error_combine, Efr, EX. reflexivity.
    + apply node_arrows_spec; [exact Hv|]. exists d. rewrite Hd by apply An. rewrite <- Ex. auto.
Qed.
Print Assumptions C37_arrows.

(** ** C43 colours *)
(** With a contour name each member is coloured by its own recorded value, and the
    colour limits are the requested ones; the undeformed plot has no colours. *)
Theorem C43_colours : forall F (NF : Num F) (m : model F) eh u v name scale cbar inc sc,
  m_elems m = Some eh -> m_built m = Some u ->
  (- Z.of_nat (List.length (u_R u)) <= inc)%Z ->
  plot_model m v (Some (CName name)) scale cbar inc = Ok sc ->
  exists k r, shows (u_R u) inc k r /\
    match sc_limits sc with
    | None => (k = 0 \/ forall l, ~ named_values name r l) /\ forall x, In x (sc_members sc) -> snd x = None
    | Some lim => k <> 0 /\ (forall lm, cbar = Some lm -> lim = lm) /\
        exists l, named_values name r l /\
          forall e, e < List.length (el_conns eh) ->
            exists ends value, nth_error l e = Some value /\ nth_error (sc_members sc) e = Some (ends, Some value)
    end.
Proof.
  intros F NF m eh u v name scale cbar inc sc Ee Eu Hinc H.
  unfold plot_model, with_results in H. rewrite Ee, Eu in H. destruct (m_nodes m) as [nh|]; [|discriminate].
  destruct (m_forces m) as [fh|]; [|discriminate].
  destruct (p_model_parts _ _ _ _ _ _ _ _ _ _ H Hinc) as (k & r & con & f & X & ms & Hsh & Hv & Hc & _ & _ & Hm & ->).
  exists k, r. split; [exact Hsh|]. cbn [sc_limits sc_members].
  apply draw_members_spec in Hm. destruct Hm as [Lm Hm].
  assert (None_all : con = None -> forall x, In x ms -> snd x = None).
  { intros -> x Hx. apply In_nth_error in Hx. destruct Hx as (e & He).
    assert (e < List.length (el_conns eh)) by (rewrite <- Lm; apply nth_error_Some; congruence).
    destruct (nth_error (el_conns eh) e) as [[a b]|] eqn:E; [|apply nth_error_None in E; lia].
    destruct (Hm e a b E) as (x' & Hx' & _ & _ & _ & _ & _ & _ & Hcol). cbn in Hcol. congruence. }
  apply contour_of_spec in Hc. destruct (Nat.eqb_spec k 0) as [K0|K0].
  - subst con. cbn. split; [auto|]. now apply None_all.
  - destruct Hc as [[-> Hn]|(l & lim & -> & Hl & Hlim)]; cbn [option_map fst snd] in *.
    + split; [auto|]. now apply None_all.
    + split; [exact K0|]. split.
      { intros lm ->. exact Hlim. }
      exists l. split; [exact Hl|]. intros e He.
      destruct (nth_error (el_conns eh) e) as [[a b]|] eqn:E; [|apply nth_error_None in E; lia].
      destruct (Hm e a b E) as ([ends col] & Hx & _ & _ & _ & _ & _ & _ & val & Hval & Hcol). cbn in Hcol. subst col. eauto.
Qed.
Print Assumptions C43_colours.

(** The same for a contour given with its limits. *)
Theorem C43_given : forall F (NF : Num F) (m : model F) eh u v name lim scale cbar inc sc,
  m_elems m = Some eh -> m_built m = Some u ->
  (- Z.of_nat (List.length (u_R u)) <= inc)%Z ->
  plot_model m v (Some (CTuple name lim)) scale cbar inc = Ok sc ->
  exists k r, shows (u_R u) inc k r /\
    (k <> 0 -> sc_limits sc = Some lim /\
      exists l, named_values name r l /\
          forall e, e < List.length (el_conns eh) ->
            exists ends value, nth_error l e = Some value /\ nth_error (sc_members sc) e = Some (ends, Some value)).
Proof.
  intros F NF m eh u v name lim scale cbar inc sc Ee Eu Hinc H.
  unfold plot_model, with_results in H. rewrite Ee, Eu in H. destruct (m_nodes m) as [nh|]; [|discriminate].
  destruct (m_forces m) as [fh|]; [|discriminate].
  destruct (p_model_parts _ _ _ _ _ _ _ _ _ _ H Hinc) as (k & r & con & f & X & ms & Hsh & Hv & Hc & _ & _ & Hm & ->).
  exists k, r. split; [exact Hsh|]. cbn [sc_limits sc_members].
  apply draw_members_spec in Hm. destruct Hm as [Lm Hm].
  apply contour_of_spec in Hc. intros Hk. destruct (Nat.eqb_spec k 0) as [K0|K0]; [contradiction|].
  destruct Hc as (l & -> & Hl). cbn [option_map fst snd] in *. split; [reflexivity|]. exists l. split; [exact Hl|]. intros e He.
  destruct (nth_error (el_conns eh) e) as [[a b]|] eqn:E; [|apply nth_error_None in E; lia].
  destruct (Hm e a b E) as ([ends col] & Hx & _ & _ & _ & _ & _ & _ & val & Hval & Hcol). cbn in Hcol. subst col. eauto.
Qed.
Print Assumptions C43_given.

Lemma pymax_ge : forall (l : list R) m, pymax l = Ok m -> (forall x, In x l -> (x <= m)%R) /\ In m l.
Proof.
  intros [|a l] m H; [discriminate|]. cbn in H. injection H as <-.
  revert a. induction l as [|b l IH]; intros a; cbn [fold_left].
  - split; [|now left]. intros x [<-|[]]. lra.
  - destruct (IH (if Rltb a b then b else a)) as [G1 G2]. numR. split.
    + intros x Hx. assert (M : (a <= (if Rltb a b then b else a) /\ b <= (if Rltb a b then b else a))%R).
      { destruct (Rltb a b) eqn:E; [apply Rltb_true in E|apply Rltb_false in E]; lra. }
      pose proof (G1 _ (or_introl eq_refl)) as G0.
      destruct Hx as [<-|[<-|Hx]]; [lra|lra|]. apply G1. now right.
    + destruct G2 as [G2|G2]; [|right; now right]. destruct (Rltb a b); rewrite <- G2; [right|]; now left.
Qed.

(** In exact arithmetic the automatic colour limits are the smallest interval
    symmetric about 1 (stretch) or 0 (force, stress) that contains every value. *)
Theorem C43_auto : forall (m : model R) u v name scale inc sc lo hi,
  m_built m = Some u ->
  (- Z.of_nat (List.length (u_R u)) <= inc)%Z ->
  plot_model m v (Some (CName name)) scale None inc = Ok sc -> sc_limits sc = Some (lo, hi) ->
  exists k r l, shows (u_R u) inc k r /\ named_values name r l /\
    let mid := if String.eqb name "stretch" then 1%R else 0%R in
    (mid - lo = hi - mid)%R /\ (forall x, In x l -> (lo <= x <= hi)%R) /\ exists x, In x l /\ (x = lo \/ x = hi).
Proof.
  intros m u v name scale inc sc lo hi Eu Hinc H Hlim.
  unfold plot_model, with_results in H. rewrite Eu in H. destruct (m_nodes m) as [nh|]; [|discriminate].
  destruct (m_elems m) as [eh|]; [|discriminate]. destruct (m_forces m) as [fh|]; [|discriminate].
  destruct (p_model_parts _ _ _ _ _ _ _ _ _ _ H Hinc) as (k & r & con & f & X & ms & Hsh & Hv & Hc & _ & _ & Hm & ->).
  cbn [sc_limits] in Hlim. apply contour_of_spec in Hc.
  destruct (Nat.eqb_spec k 0) as [K0|K0]; [subst con; discriminate|].
  destruct Hc as [[-> _]|(l & lim & -> & Hl & Hauto)]; [discriminate|]. cbn in Hlim. injection Hlim as ->.
  exists k, r, l. split; [exact Hsh|]. split; [exact Hl|]. cbv zeta.
  destruct (String.eqb name "stretch"); destruct Hauto as (mx & Hmx & E); injection E as -> ->; numR;
    apply pymax_ge in Hmx; destruct Hmx as [G1 G2]; (split; [lra|]); split.
  - intros x Hx. assert (Rabs (x - 1) <= mx)%R by (apply G1, in_map_iff; eauto).
    unfold Rabs in *. destruct (Rcase_abs (x - 1)); lra.
  - apply in_map_iff in G2. destruct G2 as (x & Ex & Hx). exists x. split; [exact Hx|].
    unfold Rabs in Ex. destruct (Rcase_abs (x - 1)); lra.
  - intros x Hx. assert (Rabs x <= mx)%R by (apply G1, in_map_iff; eauto).
    unfold Rabs in *. destruct (Rcase_abs x); lra.
  - apply in_map_iff in G2. destruct G2 as (x & Ex & Hx). exists x. split; [exact Hx|].
    unfold Rabs in Ex. destruct (Rcase_abs x); lra.
Qed.
Print Assumptions C43_auto.

(** ** C38 the movie *)
(** The requested increments, all results but the first if none are given. *)
Definition requested {F} (u : built F) (incs : option (list Z)) : list Z :=
  match incs with Some l => l | None => map Z.of_nat (seq 1 (List.length (u_R u) - 1)) end.

(** The frames are the plots of the requested increments, each once, in increasing
    order, if all increments are below 1000. *)
Theorem C38_frames : forall F (NF : Num F) listdir (m : model F) u v c scale cbar incs frames,
  lists_all listdir -> m_built m = Some u -> (forall i, In i (requested u incs) -> (0 <= i < 1000)%Z) ->
  plot_movie listdir m v c scale cbar incs = Ok frames ->
  exists is, StronglySorted Z.lt is /\ (forall i, In i is <-> In i (requested u incs)) /\
    Forall2 (fun i s => plot_model m v c scale cbar i = Ok s) is frames.
Proof.
  intros F NF listdir m u v c scale cbar incs frames HL Eu Hi H. unfold plot_movie, with_results in H. rewrite Eu in H.
  destruct (m_nodes m) as [nh|]; [|discriminate]. exact (movie_order _ _ _ _ _ HL Hi H).
Qed.
Print Assumptions C38_frames.

(** The movie exists whenever all its pictures do. *)
Theorem C38_total : forall F (NF : Num F) listdir (m : model F) nh u v c scale cbar incs,
  lists_all listdir -> m_nodes m = Some nh -> m_built m = Some u -> (forall i, In i (requested u incs) -> (0 <= i)%Z) ->
  (forall i, In i (requested u incs) -> exists s, plot_model m v c scale cbar i = Ok s) ->
  exists frames, plot_movie listdir m v c scale cbar incs = Ok frames.
Proof.
  intros F NF listdir m nh u v c scale cbar incs HL En Eu Hi Hd. unfold plot_movie, with_results. rewrite Eu, En.
  exact (movie_total _ _ _ _ HL Hi Hd).
Qed.
Print Assumptions C38_total.

(** A movie of more than 1000 results is never in order: increment 1000 is shown
    before increment 999. *)
Theorem C38_refuted : forall F (NF : Num F) listdir (m : model F) u v c scale cbar frames,
  lists_all listdir -> m_built m = Some u -> 1000 < List.length (u_R u) ->
  plot_movie listdir m v c scale cbar None = Ok frames ->
  exists a b s t, a < b /\
    plot_model m v c scale cbar 1000 = Ok s /\ nth_error frames a = Some s /\
    plot_model m v c scale cbar 999 = Ok t /\ nth_error frames b = Some t.
Proof.
  intros F NF listdir m u v c scale cbar frames HL Eu Hn H. unfold plot_movie, with_results in H. rewrite Eu in H.
  destruct (m_nodes m) as [nh|]; [|discriminate].
  assert (M : forall k, 1 <= k < List.length (u_R u) -> In (Z.of_nat k) (movie_incs (List.length (u_R u)) None)).
  { intros k Hk. apply in_map, in_seq. lia. }
  apply (movie_swapped _ _ _ _ _ HL) in H; auto.
  - intros i Hi. apply in_map_iff in Hi. destruct Hi as (k & <- & _). lia.
  - apply (M 999). lia.
  - apply (M 1000). lia.
Qed.
Print Assumptions C38_refuted.

(** ** A concrete case *)
(** The sample truss with node 5 renamed to 3, built and run over two steps; all
    plots of its last result, its history and its movie exist, with two members,
    arrows, colours and several frames. *)
Definition xp_nodes : option (nodeH fix_) :=
  Some (NodeH [1; 3; 2]%Z [V3 f0 f0 f0; V3 (q 3 1) (q 8 1) f0; V3 (q 3 1) (q 4 1) f0]).
Definition xp_elems : elemH fix_ :=
  ElemH [7; 9]%Z [(1, 2); (2, 3)]%Z [1; 1]%Z [1; 2]%Z
    (Tab false 3 [[q 1 1; f0; f0]; [q 1 1; q 1 10; q 1 50]]) (Tab false 1 [[f1]; [f1]]).
Definition xp_model : model fix_ :=
  Model xp_nodes (Some xp_elems) (Some (BoundH [1; 3; 2]%Z (UMat 3 [[0; 0; 0]; [0; 0; 0]; [1; 1; 0]]%Z)))
    xr_forces (xr_settings 8 8 false false None 8 2 2) None.
Definition xp_ns : list (Z * v3 fix_) :=
  [(1%Z, V3 f0 f0 f0); (3%Z, V3 (q 3 1) (q 8 1) f0); (2%Z, V3 (q 3 1) (q 4 1) f0)].
Definition xp_ms : list (member fix_) :=
  [Mb 7 1 2 UmatEl [q 1 1; f0; f0] [f1]; Mb 9 2 3 UmatPl [q 1 1; q 1 10; q 1 50] [f1]].

Lemma xp_described : described xp_model xp_ns xp_ms [(1, [0; 0; 0]); (3, [0; 0; 0]); (2, [1; 1; 0])]%Z xr_fs.
Proof.
  unfold described. split; [split; reflexivity|]. split.
  { split; [reflexivity|]. split; [reflexivity|]. repeat constructor. }
  split. { split; [reflexivity|]. split; [reflexivity|]. repeat constructor. }
  split. { eexists. split; [reflexivity|]. repeat split. }
  split; [cbn; lia|].
  split. { repeat constructor; cbn; intros H; repeat destruct H as [H|H]; try discriminate; auto. }
  split. { repeat constructor; cbn; intros H; repeat destruct H as [H|H]; try discriminate; auto. }
  split. { cbn. intros r [<-|[<-|[<-|[]]]]; reflexivity. }
  intros b [<-|[<-|[]]]; cbn; repeat split; auto; discriminate.
Qed.

Definition xp_test (m : model fix_) : bool :=
  match m_nodes m, m_elems m, m_forces m, m_built m with
  | Some nh, Some eh, Some fh, Some u =>
      eq_list Z.eqb (n_labels nh) [1; 2; 3]%Z && Nat.eqb (List.length (n_coords nh)) 3 &&
      Nat.eqb (List.length (e_rows fh)) 3 &&
      eq_list (fun p p' => Z.eqb (fst p) (fst p') && Z.eqb (snd p) (snd p')) (el_conns eh) [(1, 2); (2, 3)]%Z &&
      Nat.leb 4 (List.length (u_R u)) && Nat.leb (List.length (u_R u)) 900 &&
      match plot_model m VXY (Some (CName "stress")) f1 None (-1) with
      | Ok sc => Nat.eqb (List.length (sc_members sc)) 2 && Nat.eqb (List.length (sc_arrows sc)) 2 &&
                 match sc_limits sc with Some (lo, hi) => fltb lo hi | None => false end
      | _ => false
      end &&
      match plot_history m [2; 2]%Z "Displacement Y" "Force X", plot_history m [2; 2]%Z "Increments" "State Variable 1",
            plot_path m [1; 2; 3]%Z true (-1) "Displacement X", plot_movie (fun l => rev l) m V3D None f1 None None with
      | Ok _, Ok _, Ok _, Ok fr => Nat.leb 3 (List.length fr)
      | _, _, _, _ => false
      end
  | _, _, _, _ => false
  end.

(** Building with [b] and running with [r] succeeds and the result passes test [f]. *)
Definition passes {A B C} (b : res A) (r : A -> res (B * C)) (f : B -> bool) : bool :=
  match (m1 <- b ;; ' (m2, _) <- r m1 ;; Ok m2) with Ok m => f m | _ => false end.

Lemma split_run {A B C} (b : res A) (r : A -> res (B * C)) (f : B -> bool) : passes b r f = true ->
  exists m1 m out, b = Ok m1 /\ r m1 = Ok (m, out) /\ f m = true.
Proof.
  unfold passes. destruct b as [m1| |]; cbn [bind]; try discriminate.
  destruct (r m1) as [[m out]| |] eqn:E; cbn [bind]; try discriminate. intros H. exists m1, m, out. auto.
Qed.

Lemma xp_runs : passes (build argsort_ins xp_model) (fun m1 => run argsort_fx gauss m1 40) xp_test = true.
Proof. vm_compute. reflexivity. Qed.

Example plots_meet : exists m nh eh fh u sc frames,
  session argsort_fx gauss argsort_ins (fun _ => True) xp_model m /\
  m_nodes m = Some nh /\ m_elems m = Some eh /\ m_forces m = Some fh /\ m_built m = Some u /\
  counting (n_labels nh) /\ NoDup (n_labels nh) /\
  List.length (n_coords nh) = List.length (n_labels nh) /\ List.length (e_rows fh) = List.length (n_labels nh) /\
  el_conns eh = [(1, 2); (2, 3)]%Z /\ 4 <= List.length (u_R u) <= 900 /\
  plot_model m VXY (Some (CName "stress")) f1 None (-1) = Ok sc /\
  List.length (sc_members sc) = 2 /\ List.length (sc_arrows sc) = 2 /\
  (exists lo hi, sc_limits sc = Some (lo, hi) /\ fltb lo hi = true) /\
  (exists d, plot_history m [2; 2]%Z (text (RDisp AxY)) (text (RForce AxX)) = Ok d) /\
  (exists d, plot_history m [2; 2]%Z "Increments" (text (RState 1)) = Ok d) /\
  (exists d, plot_path m [1; 2; 3]%Z true (-1) (text (RDisp AxX)) = Ok d) /\
  lists_all (fun l => rev l) /\
  plot_movie (fun l => rev l) m V3D None f1 None None = Ok frames /\ 3 <= List.length frames.
Proof.
  destruct (split_run _ _ _ xp_runs)
    as (m1 & m & out & Eb & Er & H).
  unfold xp_test in H.
  destruct (m_nodes m) as [nh|] eqn:En; [|discriminate]. destruct (m_elems m) as [eh|] eqn:Ee; [|discriminate].
  destruct (m_forces m) as [fh|] eqn:Ef; [|discriminate]. destruct (m_built m) as [u|] eqn:Eu; [|discriminate].
  repeat (apply andb_true_iff in H; destruct H as [H ?]).
  destruct (plot_model m VXY (Some (CName "stress")) f1 None (-1)) as [sc| |] eqn:Esc; try discriminate.
  destruct (plot_history m [2; 2]%Z "Displacement Y" "Force X") as [d1| |] eqn:Ed1; try discriminate.
  destruct (plot_history m [2; 2]%Z "Increments" "State Variable 1") as [d2| |] eqn:Ed2; try discriminate.
  destruct (plot_path m [1; 2; 3]%Z true (-1) "Displacement X") as [d3| |] eqn:Ed3; try discriminate.
  destruct (plot_movie (fun l => rev l) m V3D None f1 None None) as [fr| |] eqn:Emo; try discriminate.
  repeat match goal with X : _ && _ = true |- _ => apply andb_true_iff in X; destruct X end.
  repeat match goal with X : Nat.eqb _ _ = true |- _ => apply Nat.eqb_eq in X
                       | X : Nat.leb _ _ = true |- _ => apply Nat.leb_le in X end.
  apply (eq_list_ok Z.eqb Z.eqb_eq) in H.
  match goal with X : eq_list _ (el_conns eh) _ = true |- _ => apply eq_list_ok in X; [|
    intros [a b] [a' b']; cbn; rewrite andb_true_iff, !Z.eqb_eq; split; [intros [-> ->]; reflexivity|intros E; injection E; auto]] end.
  exists m, nh, eh, fh, u, sc, fr.
  split; [eapply s_run; [apply s_build; exact Eb|exact Logic.I|exact Er]|].
  do 4 (split; [first [reflexivity|assumption]|]).
  rewrite H. split; [reflexivity|].
  split; [repeat constructor; cbn; intros X; repeat destruct X as [X|X]; try discriminate; auto|].
  split; [assumption|]. split; [assumption|]. split; [assumption|]. split; [split; assumption|].
  split; [first [reflexivity|assumption]|]. split; [assumption|]. split; [assumption|].
  split; [destruct (sc_limits sc) as [[lo hi]|]; [|discriminate]; exists lo, hi; auto|].
  split; [exists d1; exact Ed1|]. split; [exists d2; exact Ed2|]. split; [exists d3; exact Ed3|].
  split; [intros l; apply Permutation_sym, Permutation_rev|]. split; [first [reflexivity|assumption]|assumption].
Qed.

(** ** Defects *)
(** The same truss with the elements entered in the other order: the state
    variable plotted for node 1 is that of element 9, which joins nodes 2 and 3,
    and it differs from the one of the only element at node 1. *)
Definition xs_elems : elemH fix_ :=
  ElemH [9; 7]%Z [(2, 3); (1, 2)]%Z [1; 1]%Z [2; 1]%Z
    (Tab false 3 [[q 1 1; q 1 10; q 1 50]; [q 1 1; f0; f0]]) (Tab false 1 [[f1]; [f1]]).
Definition xs_model : model fix_ :=
  Model xp_nodes (Some xs_elems) (m_bounds xp_model) (m_forces xp_model) (m_set xp_model) None.

Definition xs_test (m : model fix_) : bool :=
  match m_built m with
  | Some u =>
      match plot_path m [1]%Z false (-1) (text (RState 1)), rev (u_R u) with
      | Ok (_, [y]), r :: _ =>
          match a_state r with
          | Some sv => match nth_error sv 1 with Some (x :: _) => negb (feqb x y) | _ => false end
          | None => false
          end
      | _, _ => false
      end
  | None => false
  end.

Lemma xs_runs : match (m1 <- build argsort_ins xs_model ;; ' (m2, _) <- run argsort_fx gauss m1 40 ;; Ok m2) with
                | Ok m => xs_test m | _ => false end = true.
Proof. vm_compute. reflexivity. Qed.

Theorem C36_state_refuted : exists m u r sv x row y,
  session argsort_fx gauss argsort_ins (fun _ => True) xs_model m /\ m_built m = Some u /\
  rev (u_R u) = r :: rev (removelast (u_R u)) /\
  (* the row of element 7, the only element at node 1 *)
  el_conns xs_elems = [(2, 3); (1, 2)]%Z /\ a_state r = Some sv /\ nth_error sv 1 = Some (x :: row) /\
  plot_path m [1]%Z false (-1) (text (RState 1)) = Ok ([0%Z], [y]) /\ feqb x y = false.
Proof.
  pose proof xs_runs as H.
  destruct (build argsort_ins xs_model) as [m1| |] eqn:Eb; try discriminate. cbn [bind] in H.
  destruct (run argsort_fx gauss m1 40) as [[m out]| |] eqn:Er; try discriminate. cbn [bind] in H.
  unfold xs_test in H. destruct (m_built m) as [u|] eqn:Eu; [|discriminate].
  destruct (plot_path m [1]%Z false (-1) (text (RState 1))) as [[xd [|y [|]]]| |] eqn:Ep; try discriminate.
  destruct (rev (u_R u)) as [|r rest] eqn:ER; [discriminate|].
  destruct (a_state r) as [sv|] eqn:Es; [|discriminate]. destruct (nth_error sv 1) as [[|x row]|] eqn:En; try discriminate.
  apply negb_true_iff in H.
  assert (EU : u_R u = rev rest ++ [r]) by (rewrite <- (rev_involutive (u_R u)), ER; reflexivity).
  exists m, u, r, sv, x, row, y.
  split; [eapply s_run; [apply s_build; exact Eb|exact Logic.I|exact Er]|].
  split; [exact Eu|]. split; [rewrite EU, removelast_snoc, rev_app_distr; cbn; now rewrite rev_involutive|].
  split; [reflexivity|]. split; [exact Es|]. split; [exact En|]. split; [|exact H].
  assert (E : xd = [0%Z]).
  { unfold plot_path, with_results in Ep. rewrite Eu in Ep. destruct (m_nodes m); [|discriminate].
    unfold p_path in Ep. apply bind_ok in Ep. destruct Ep as (? & _ & Ep). apply bind_ok in Ep. destruct Ep as ([? ?] & _ & Ep).
    cbn in Ep. now injection Ep as <- _. }
  subst xd. exact Ep.
Qed.
Print Assumptions C36_state_refuted.

(** Nodes 2, 3, 4 and one element from 2 to 3: it is drawn from node 3 to node 4. *)
Definition xw_model : model fix_ :=
  Model (Some (NodeH [2; 3; 4]%Z [V3 f0 f0 f0; V3 (q 3 1) (q 8 1) f0; V3 (q 3 1) (q 4 1) f0]))
    (Some (ElemH [1]%Z [(2, 3)]%Z [1]%Z [1]%Z (Tab false 3 [[q 1 1; f0; f0]]) (Tab false 1 [[f1]])))
    None (Some (ForceH [2%Z] 3 [[f0; q (-1) 1; f0]])) (m_set xp_model) None.

Theorem C37_refuted : exists m nh u sc,
  build argsort_ins xw_model = Ok m /\ m_nodes m = Some nh /\ m_built m = Some u /\
  plot_model m V3D None f1 None 0 = Ok sc /\
  (exists eh, m_elems m = Some eh /\ el_conns eh = [(2, 3)]%Z) /\
  deformed (n_labels nh) (n_coords nh) (last (u_R u) (u_an u)) 2 (V3 f0 f0 f0) /\
  forall a b col, nth_error (sc_members sc) 0 = Some (a, b, col) -> a <> shown V3D (V3 f0 f0 f0) /\ b <> shown V3D (V3 f0 f0 f0).
Proof.
  set (r := build argsort_ins xw_model). vm_compute in r.
  match goal with r := Ok ?m' |- _ => exists m' end.
  do 3 eexists. split; [reflexivity|]. split; [reflexivity|]. split; [reflexivity|].
  split; [vm_compute; reflexivity|]. split; [eexists; split; reflexivity|]. split.
  - exists (V3 f0 f0 f0), (V3 f0 f0 f0). split; [exists 0; split; reflexivity|]. split; [exists 0; split; reflexivity|reflexivity].
  - intros a b col H. cbn in H. injection H as <- <- _. split; discriminate.
Qed.
Print Assumptions C37_refuted.
