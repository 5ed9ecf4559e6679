(** * Facts about the element loop, for every arithmetic *)
From Coq Require Import List ZArith Bool Arith Lia.
Import ListNotations.
From Verif Require Import Num Vec Handlers Material Analysis Truss Equil ListFacts SpecMech.

(** ** Labels and positions *)
Definition idx (l : Z) (labels : list Z) : nat := hd 0 (positions l labels).

Lemma idx_nth labels l : In l labels -> nth_error labels (idx l labels) = Some l.
Proof.
  intros H. unfold idx. apply In_nth_error in H. destruct H as [i Hi].
  apply positions_In in Hi. destruct (positions l labels) eqn:E; [destruct Hi|].
  apply positions_In. rewrite E. left. reflexivity.
Qed.

Lemma idx_positions labels l : NoDup labels -> In l labels -> positions l labels = [idx l labels].
Proof. intros Hn Hi. apply positions_NoDup; auto using idx_nth. Qed.

Lemma idx_lt labels l : In l labels -> idx l labels < length labels.
Proof. intros H. apply nth_error_Some. rewrite idx_nth; auto. discriminate. Qed.

Lemma idx_inj labels l l' : In l labels -> In l' labels -> idx l labels = idx l' labels -> l = l'.
Proof. intros H H' E. apply idx_nth in H. apply idx_nth in H'. congruence. Qed.

Lemma idx_of_nth labels i l : NoDup labels -> nth_error labels i = Some l -> idx l labels = i.
Proof.
  intros Hn Hi. eapply NoDup_nth_inj; eauto. apply idx_nth. eapply nth_error_In; eauto.
Qed.

Lemma row_of_nth {A} labels (arr : list A) d l :
  NoDup labels -> In l labels -> length arr = length labels ->
  row_of labels arr d l = nth (idx l labels) arr d.
Proof.
  revert arr. induction labels as [|a labels IH]; intros arr Hn Hi Hl; [destruct Hi|].
  destruct arr as [|x arr]; [discriminate|]. cbn [row_of].
  destruct (Z.eqb_spec l a) as [->|Hne].
  - rewrite (idx_of_nth (a :: labels) 0 a); auto.
  - destruct Hi as [|Hi]; [congruence|].
    inversion Hn as [|? ? Hni Hn']; subst. cbn in Hl.
    rewrite IH by (auto; lia).
    assert (E : idx l (a :: labels) = S (idx l labels)).
    { apply idx_of_nth; [constructor; auto|]. cbn. apply idx_nth. exact Hi. }
    rewrite E. reflexivity.
Qed.

Lemma nth_nth_error {A} (l : list A) i d : i < length l -> nth_error l i = Some (nth i l d).
Proof. intros H. apply nth_error_nth'. exact H. Qed.

Section Facts.
  Context {F : Type} `{NF : Num F}.

  Implicit Types (c : ctx F) (an : analysis F) (m : member F).

  Lemma node_row_ok {A} c (arr : list A) d l :
    NoDup (c_labels c) -> In l (c_labels c) -> length arr = length (c_labels c) ->
    node_row c arr l = Ok (nth (idx l (c_labels c)) arr d).
  Proof.
    intros Hn Hi Hl. unfold node_row. rewrite idx_positions by auto.
    apply gather0_one. apply nth_nth_error. rewrite Hl. apply idx_lt. exact Hi.
  Qed.

  (** Quantities of member [m] standing at table position [k]. *)
  Definition member_q c (U U0 : list (v3 F)) (sv : option (list F)) m : res (truss_q (F:=F)) :=
    let at_ arr l := nth (idx l (c_labels c)) arr vzero in
    truss_quantities (at_ (c_coords c) (mb_a m)) (at_ (c_coords c) (mb_b m))
                     (at_ U (mb_a m)) (at_ U (mb_b m)) (at_ U0 (mb_a m)) (at_ U0 (mb_b m))
                     (mb_law m) (mb_mat m) (mb_geo m) sv.

  (** Adding [v] to row [i]. *)
  Definition radd (r : list (v3 F)) (i : nat) (v : v3 F) : list (v3 F) :=
    set_nth i (vadd (nth i r vzero) v) r.

  Definition r_member c (r : list (v3 F)) (mq : member F * truss_q) : list (v3 F) :=
    radd (radd r (idx (mb_a (fst mq)) (c_labels c)) (vscale (q_N (snd mq)) (vneg (q_n (snd mq)))))
         (idx (mb_b (fst mq)) (c_labels c)) (vscale (q_N (snd mq)) (q_n (snd mq))).

  Definition kadd (K : list (list (m3 F))) (a b : nat) (M : m3 F) : list (list (m3 F)) :=
    set_nth a (set_nth b (madd (nth b (nth a K []) mzero) M) (nth a K [])) K.

  Definition k_member c (K : list (list (m3 F))) (mq : member F * truss_q) : list (list (m3 F)) :=
    let a := idx (mb_a (fst mq)) (c_labels c) in
    let b := idx (mb_b (fst mq)) (c_labels c) in
    let M := truss_KTEE (snd mq) in
    kadd (kadd (kadd (kadd K a a M) a b (mneg M)) b a (mneg M)) b b M.

  Lemma radd_length r i v : length (radd r i v) = length r.
  Proof. apply set_nth_length. Qed.

  Lemma r_member_length c r mq : length (r_member c r mq) = length r.
  Proof. unfold r_member. rewrite !radd_length. reflexivity. Qed.

  Lemma nth_set_nth {A} i j (v : A) l d :
    nth j (set_nth i v l) d = if (Nat.eqb j i && Nat.ltb i (length l))%bool then v else nth j l d.
  Proof.
    destruct (Nat.lt_ge_cases j (length l)) as [H|H].
    - assert (E : Some (nth j (set_nth i v l) d) =
                  if (Nat.eqb j i && Nat.ltb i (length l))%bool then Some v else Some (nth j l d)).
      { rewrite <- !nth_nth_error by (rewrite ?set_nth_length; auto).
        apply nth_error_set_nth. }
      destruct (Nat.eqb j i && Nat.ltb i (length l))%bool; congruence.
    - rewrite !nth_overflow by (rewrite ?set_nth_length; auto).
      destruct (Nat.eqb_spec j i); auto. destruct (Nat.ltb_spec i (length l)); auto. lia.
  Qed.

  Definition kdims (n : nat) (K : list (list (m3 F))) : Prop :=
    length K = n /\ forall row, In row K -> length row = n.

  Lemma kdims_nth n K a : kdims n K -> a < n -> length (nth a K []) = n.
  Proof. intros [Hl Hr] Ha. apply Hr. apply nth_In. lia. Qed.

  Lemma kdims_kadd n K a b M : kdims n K -> a < n -> kdims n (kadd K a b M).
  Proof.
    intros HK Ha. pose proof (kdims_nth _ _ _ HK Ha) as Hra. destruct HK as [Hl Hr]. split.
    - unfold kadd. rewrite set_nth_length. exact Hl.
    - intros row Hin. apply In_nth_error in Hin. destruct Hin as [i Hi].
      unfold kadd in Hi. rewrite nth_error_set_nth in Hi.
      destruct (_ && _).
      + injection Hi as <-. rewrite set_nth_length. exact Hra.
      + apply nth_error_In in Hi. auto.
  Qed.

  Lemma K_add_ok n K a b M : kdims n K -> a < n -> b < n -> K_add K a b M = Ok (kadd K a b M).
  Proof.
    intros HK Ha Hb. unfold K_add, kadd. pose proof (kdims_nth _ _ _ HK Ha) as Hra.
    rewrite (nth_nth_error K a []) by (destruct HK; lia).
    rewrite (nth_nth_error (nth a K []) b mzero) by lia. reflexivity.
  Qed.

  (** ** One element *)
  Definition upd_an (st : stage) c (k : nat) (mq : member F * truss_q) an : analysis F :=
    match st with
    | StG => set_r (r_member c (a_r an) mq)
              (set_force (set_nth k (q_N (snd mq)) (a_force an))
                (set_stress (set_nth k (q_stress (snd mq)) (a_stress an))
                  (set_stretch (set_nth k (q_lam (snd mq)) (a_stretch an)) an)))
    | StK => set_K (k_member c (a_K an) mq) an
    end.

  Definition upd_state (st : stage) (k : nat) (q : truss_q (F:=F)) (sv : list (list F)) : list (list F) :=
    match st, q_state q with StG, Some row => set_nth k row sv | _, _ => sv end.

  Definition upd_write (st : stage) c (Ured : list F) (lpf : F) (w : bool) (k : nat)
      (mq : member F * truss_q) an : analysis F :=
    let an1 := upd_an st c k mq an in
    if w && (0 <? c_nstatev c)%Z
    then set_Vred (Ured ++ [lpf]) (set_lpf lpf
           (set_state (match a_state an with
                       | Some sv => Some (upd_state st k (snd mq) sv) | None => None end) an1))
    else an1.

  Lemma lists_nth h (ms : list (member F)) k m :
    lists_members h ms -> NoDup (map mb_label ms) -> nth_error ms k = Some m ->
    positions (mb_label m) (el_labels h) = [k] /\
    get_nodes h (mb_label m) = Ok (mb_a m, mb_b m) /\
    get_material_type h (mb_label m) = Ok (law_code (mb_law m)) /\
    get_material_properties h (mb_label m) = Ok (mb_mat m) /\
    get_geometric_properties h (mb_label m) = Ok (mb_geo m).
  Proof.
    intros (H1 & H2 & H3 & H4 & H5) Hn Hk.
    assert (Hp : positions (mb_label m) (el_labels h) = [k]).
    { rewrite H1. apply positions_NoDup; auto. rewrite nth_error_map, Hk. reflexivity. }
    unfold get_nodes, get_material_type, get_material_properties, get_geometric_properties.
    rewrite Hp. split; [reflexivity|].
    repeat split; apply gather0_one; rewrite ?H2, ?H3, ?H4, ?H5, nth_error_map, Hk; reflexivity.
  Qed.

  Lemma select_law prev u : select_umat prev (law_code u) = Some u.
  Proof. destruct u; reflexivity. Qed.

  Lemma truss_quantities_state XA XE UA UE U0A U0E u mat geo sv q :
    truss_quantities XA XE UA UE U0A U0E u mat geo sv = Ok q ->
    (sv = None -> q_state q = None) /\ (sv <> None -> q_state q <> None).
  Proof.
    unfold truss_quantities. intros H. mstep H. destruct a as [[s d] sv']. mstep H. injection H as <-.
    cbn [q_state]. destruct u; cbn [umat] in Ha.
    - unfold umat_el in Ha. mstep Ha. injection Ha as <- <- <-. split; congruence.
    - unfold umat_elplast_iso in Ha. do 3 mstep Ha. destruct sv as [sv|]; [|discriminate].
      do 2 mstep Ha. split; [discriminate|]. intros _.
      destruct (fleb _ f0); injection Ha as <- <- <-; discriminate.
  Qed.

  Lemma elem_step_ok c ms st Ured lpf w an prev k m q :
    truss_ok c ms -> sizes_ok c ms an -> nth_error ms k = Some m ->
    member_q c (a_U an) (a_U0 an) (state_row c an k) m = Ok q ->
    elem_step c st Ured lpf w (an, prev) (mb_label m)
    = Ok (upd_write st c Ured lpf w k (m, q) an, Some (mb_law m)).
  Proof.
    intros (Hnd & Hco & Hlist & Hnl & Hnodes) Hsz Hk Hq.
    destruct Hsz as (HU & HU0 & Hr & HK & HKr & Hst & Hss & Hf & _ & _ & _ & Hsv).
    destruct (lists_nth _ _ _ _ Hlist Hnl Hk) as (Hp & G1 & G2 & G3 & G4).
    destruct (Hnodes m (nth_error_In _ _ Hk)) as (Ha & Hb & Hab).
    assert (Hkl : k < length ms) by (apply nth_error_Some; congruence).
    unfold elem_step. cbn [fst snd].
    rewrite G1. cbn [bind]. rewrite G3, G4. cbn [bind].
    rewrite (node_row_ok c (c_coords c) vzero (mb_a m)), (node_row_ok c (c_coords c) vzero (mb_b m)) by auto.
    rewrite (node_row_ok c (a_U an) vzero (mb_a m)), (node_row_ok c (a_U an) vzero (mb_b m)) by auto.
    rewrite (node_row_ok c (a_U0 an) vzero (mb_a m)), (node_row_ok c (a_U0 an) vzero (mb_b m)) by auto.
    rewrite (node_row_ok c (a_r an) vzero (mb_a m)), (node_row_ok c (a_r an) vzero (mb_b m)) by auto.
    cbn [bind].
    assert (Hsvok : exists svo, (if (0 <? c_nstatev c)%Z then
        match a_state an with Some sv => Ok (Some sv) | None => Err AttributeError end else Ok None) = Ok svo
        /\ (match svo with None => state_row c an k = None /\ (0 <? c_nstatev c)%Z = false
            | Some sv => a_state an = Some sv /\ (0 <? c_nstatev c)%Z = true /\ length sv = length ms
               /\ state_row c an k = nth_error sv k end)).
    { unfold state_row. destruct (Z.ltb_spec 0 (c_nstatev c)) as [H0|H0].
      - destruct (Hsv H0) as (sv & -> & Hl). exists (Some sv). auto.
      - exists None. auto. }
    destruct Hsvok as (svo & -> & Hsvo). cbn [bind]. rewrite G2. cbn [bind].
    rewrite select_law. unfold truss. rewrite Hp.
    assert (Hsve : match svo with None => Ok None | Some sv => r <- gather0 sv [k];; Ok (Some r) end
                   = Ok (state_row c an k)).
    { destruct svo as [sv|].
      - destruct Hsvo as (_ & _ & Hl & ->).
        destruct (nth_error sv k) eqn:E; [|apply nth_error_None in E; lia].
        rewrite (gather0_one _ _ _ E). reflexivity.
      - destruct Hsvo as [-> _]. reflexivity. }
    rewrite Hsve. cbn [bind]. unfold member_q in Hq. rewrite Hq. cbn [bind].
    pose proof (truss_quantities_state _ _ _ _ _ _ _ _ _ _ _ Hq) as [Hq1 Hq2].
    rewrite (idx_positions _ _ Hnd Ha), (idx_positions _ _ Hnd Hb).
    pose proof (idx_lt _ _ Ha). pose proof (idx_lt _ _ Hb).
    assert (Hne : idx (mb_b m) (c_labels c) <> idx (mb_a m) (c_labels c)).
    { intros E. apply Hab. symmetry. eapply idx_inj; eauto. }
    destruct st.
    - rewrite !put_one by (rewrite ?set_nth_length; lia). cbn [bind].
      assert (Hw : match svo with
                   | Some sv => match q_state q with Some row => s <- put sv [k] row ;; Ok (Some s) | None => Ok svo end
                   | None => Ok svo end
                   = Ok (match svo with Some sv => Some (upd_state StG k q sv) | None => None end)).
      { destruct svo as [sv|]; auto. destruct Hsvo as (_ & _ & Hl & Hs2).
        unfold upd_state. destruct (q_state q) as [row|]; auto. rewrite put_one by lia. reflexivity. }
      assert (Hw' : match svo, q_state q with
                    | Some sv, Some row => s <- put sv [k] row ;; Ok (Some s)
                    | _, _ => Ok svo end
                    = Ok (match svo with Some sv => Some (upd_state StG k q sv) | None => None end)).
      { rewrite <- Hw. destruct svo, (q_state q); reflexivity. }
      rewrite Hw'. cbn [bind].
      rewrite put_one by (rewrite set_nth_length; lia). cbn [bind].
      unfold upd_write, upd_an, r_member, radd. cbn [fst snd].
      rewrite (nth_set_nth (idx (mb_a m) (c_labels c)) (idx (mb_b m) (c_labels c))).
      destruct (Nat.eqb_spec (idx (mb_b m) (c_labels c)) (idx (mb_a m) (c_labels c))) as [E|_]; [contradiction|].
      cbn [andb].
      destruct svo as [sv|].
      + destruct Hsvo as (-> & -> & _). reflexivity.
      + destruct Hsvo as (_ & ->). rewrite !andb_false_r. reflexivity.
    - unfold first_pos.
      rewrite (idx_positions _ _ Hnd Ha), (idx_positions _ _ Hnd Hb). cbn [bind].
      assert (HKd : kdims (length (c_labels c)) (a_K an)) by (split; auto).
      rewrite (K_add_ok _ _ _ _ _ HKd) by auto. cbn [bind].
      pose proof (kdims_kadd _ _ (idx (mb_a m) (c_labels c)) (idx (mb_a m) (c_labels c)) (truss_KTEE q) HKd) as HK1.
      rewrite (K_add_ok (length (c_labels c))) by auto. cbn [bind].
      rewrite (K_add_ok (length (c_labels c))) by (auto using kdims_kadd). cbn [bind].
      rewrite (K_add_ok (length (c_labels c))) by (auto using kdims_kadd). cbn [bind].
      unfold upd_write, upd_an, k_member. cbn [fst snd].
      destruct svo as [sv|].
      + destruct Hsvo as (-> & -> & _). unfold upd_state. reflexivity.
      + destruct Hsvo as (_ & ->). rewrite !andb_false_r. reflexivity.
  Qed.

  (** Conversely, if the step succeeds the member's quantities are defined. *)
  Lemma elem_step_inv c ms st Ured lpf w an prev k m s' :
    truss_ok c ms -> sizes_ok c ms an -> nth_error ms k = Some m ->
    elem_step c st Ured lpf w (an, prev) (mb_label m) = Ok s' ->
    exists q, member_q c (a_U an) (a_U0 an) (state_row c an k) m = Ok q.
  Proof.
    intros (Hnd & Hco & Hlist & Hnl & Hnodes) Hsz Hk.
    destruct Hsz as (HU & HU0 & Hr & HK & HKr & Hst & Hss & Hf & _ & _ & _ & Hsv).
    destruct (lists_nth _ _ _ _ Hlist Hnl Hk) as (Hp & G1 & G2 & G3 & G4).
    destruct (Hnodes m (nth_error_In _ _ Hk)) as (Ha & Hb & Hab).
    assert (Hkl : k < length ms) by (apply nth_error_Some; congruence).
    unfold elem_step. cbn [fst snd].
    rewrite G1. cbn [bind]. rewrite G3, G4. cbn [bind].
    rewrite (node_row_ok c (c_coords c) vzero (mb_a m)), (node_row_ok c (c_coords c) vzero (mb_b m)) by auto.
    rewrite (node_row_ok c (a_U an) vzero (mb_a m)), (node_row_ok c (a_U an) vzero (mb_b m)) by auto.
    rewrite (node_row_ok c (a_U0 an) vzero (mb_a m)), (node_row_ok c (a_U0 an) vzero (mb_b m)) by auto.
    rewrite (node_row_ok c (a_r an) vzero (mb_a m)), (node_row_ok c (a_r an) vzero (mb_b m)) by auto.
    cbn [bind]. rewrite G2. cbn [bind]. rewrite select_law.
    intros H. mstep H. mstep H. unfold truss in Ha1. rewrite Hp in Ha1. mstep Ha1.
    assert (Hsve : a1 = state_row c an k).
    { unfold state_row. destruct (Z.ltb_spec 0 (c_nstatev c)) as [H0|H0].
      - destruct (Hsv H0) as (sv & E & Hl). rewrite E in *. injection Ha0 as <-.
        mstep Ha2. match goal with Hg : gather0 _ _ = Ok _ |- _ => apply gather0_ok in Hg; destruct Hg as (i & l' & E1 & E2) end.
        injection E1 as <- <-. congruence.
      - injection Ha0 as <-. congruence. }
    subst a1. mstep Ha1.
    match goal with Hq : truss_quantities _ _ _ _ _ _ _ _ _ _ = Ok ?q |- _ => exists q; exact Hq end.
  Qed.

  (** ** The loop *)
  Definition loop_an (st : stage) c (Ured : list F) (lpf : F) (w : bool)
      (l : list (nat * (member F * truss_q))) an : analysis F :=
    fold_left (fun a p => upd_write st c Ured lpf w (fst p) (snd p) a) l an.

  Lemma upd_write_frame st c Ured lpf w k mq an :
    let an' := upd_write st c Ured lpf w k mq an in
    a_U an' = a_U an /\ a_U0 an' = a_U0 an /\ a_step an' = a_step an /\ a_g an' = a_g an /\
    a_DOF0 an' = a_DOF0 an /\ a_DOF1 an' = a_DOF1 an /\ a_Ured an' = a_Ured an /\
    a_dVmax an' = a_dVmax an /\ a_j an' = a_j an /\ a_Kred an' = a_Kred an /\ a_Kmod an' = a_Kmod an /\
    a_f0red an' = a_f0red an /\ a_fconst an' = a_fconst an /\ a_forces an' = a_forces an.
  Proof. unfold upd_write, upd_an. destruct st, (w && _); cbn; repeat split. Qed.

  Lemma upd_write_sizes st c ms Ured lpf w k m q an :
    truss_ok c ms -> In m ms ->
    sizes_ok c ms an -> sizes_ok c ms (upd_write st c Ured lpf w k (m, q) an).
  Proof.
    intros Hok Hm (HU & HU0 & Hr & HK & HKr & Hst & Hss & Hf & HD & HD' & Hn & Hsv).
    pose proof (upd_write_frame st c Ured lpf w k (m, q) an) as Hfr. cbn zeta in Hfr.
    destruct Hfr as (E1 & E2 & _ & _ & _ & E3 & _).
    unfold sizes_ok. rewrite E1, E2, E3.
    assert (HKd : kdims (length (c_labels c)) (a_K (upd_write st c Ured lpf w k (m, q) an))).
    { unfold upd_write, upd_an. destruct Hok as (_ & _ & _ & _ & Hnodes).
      destruct (Hnodes m Hm) as (Ha & Hb & _). apply idx_lt in Ha. apply idx_lt in Hb.
      destruct st, (w && _); cbn; try (split; auto; fail);
        unfold k_member; cbn [fst snd]; repeat (apply kdims_kadd; auto); split; auto. }
    destruct HKd as [HK1 HK2].
    do 3 (split; [first [assumption | unfold upd_write, upd_an; destruct st, (w && _); cbn; rewrite ?r_member_length; assumption]|]).
    split; [exact HK1|]. split; [exact HK2|].
    do 3 (split; [unfold upd_write, upd_an; destruct st, (w && _); cbn; rewrite ?set_nth_length; assumption|]).
    split; [exact HD|]. split; [exact HD'|]. split; [exact Hn|].
    intros H0. destruct (Hsv H0) as (sv & E & Hl).
    unfold upd_write. destruct (w && _).
    - cbn. rewrite E. eexists. split; [reflexivity|]. unfold upd_state. destruct st; [|auto]. destruct (q_state q); [|auto].
      rewrite set_nth_length. exact Hl.
    - exists sv. unfold upd_an. destruct st; cbn; auto.
  Qed.

  Lemma upd_write_state_other st c Ured lpf w k mq an j :
    j <> k -> state_row c (upd_write st c Ured lpf w k mq an) j = state_row c an j.
  Proof.
    intros Hj. unfold state_row, upd_write. destruct (0 <? c_nstatev c)%Z; [|reflexivity].
    rewrite andb_true_r. destruct w.
    - cbn. destruct (a_state an) as [sv|]; [|reflexivity]. unfold upd_state.
      destruct st; [|reflexivity]. destruct (q_state (snd mq)); [|reflexivity].
      apply nth_error_set_nth_neq. exact Hj.
    - unfold upd_an. destruct st; reflexivity.
  Qed.

  (** [qs] are the quantities of the members [ms2] standing from position [k] on. *)
  Inductive quants c U U0 (row : nat -> option (list F)) : nat -> list (member F) -> list (truss_q (F:=F)) -> Prop :=
  | quants_nil k : quants c U U0 row k [] []
  | quants_cons k m ms q qs :
      member_q c U U0 (row k) m = Ok q -> quants c U U0 row (S k) ms qs ->
      quants c U U0 row k (m :: ms) (q :: qs).

  Lemma quants_ext c U U0 row row' k ms qs :
    (forall j, k <= j -> row j = row' j) -> quants c U U0 row k ms qs -> quants c U U0 row' k ms qs.
  Proof.
    intros He H. revert He. induction H; intros He; constructor.
    - rewrite <- He by lia. exact H.
    - apply IHquants. intros j Hj. apply He. lia.
  Qed.

  Lemma quants_length c U U0 row k ms qs : quants c U U0 row k ms qs -> length qs = length ms.
  Proof. induction 1; cbn; auto. Qed.

  Lemma quants_nth c U U0 row k ms qs : quants c U U0 row k ms qs ->
    forall i m, nth_error ms i = Some m ->
    exists q, nth_error qs i = Some q /\ member_q c U U0 (row (k + i)) m = Ok q.
  Proof.
    induction 1 as [|k m0 ms q qs Hq Hqs IH]; intros [|i] m Hi; try discriminate; cbn in Hi.
    - injection Hi as <-. exists q. rewrite Nat.add_0_r. auto.
    - destruct (IH _ _ Hi) as (q' & H1 & H2). exists q'. rewrite Nat.add_succ_r. auto.
  Qed.

  Definition zipk (k : nat) (ms : list (member F)) (qs : list (truss_q (F:=F))) :=
    combine (seq k (length ms)) (combine ms qs).

  Lemma loop_ok c ms st Ured lpf w : truss_ok c ms ->
    forall ms2 ms1 qs an prev, ms = ms1 ++ ms2 -> sizes_ok c ms an ->
    quants c (a_U an) (a_U0 an) (state_row c an) (length ms1) ms2 qs ->
    exists prev', foldM (elem_step c st Ured lpf w) (map mb_label ms2) (an, prev)
    = Ok (loop_an st c Ured lpf w (zipk (length ms1) ms2 qs) an, prev').
  Proof.
    intros Hok. induction ms2 as [|m ms2 IH]; intros ms1 qs an prev Hms Hsz Hq.
    - inversion Hq; subst. exists prev. reflexivity.
    - inversion Hq as [|k m' ms' q qs' Hq1 Hq2]; subst.
      assert (Hk : nth_error (ms1 ++ m :: ms2) (length ms1) = Some m).
      { rewrite nth_error_app2, Nat.sub_diag by lia. reflexivity. }
      cbn [map foldM]. rewrite (elem_step_ok _ _ _ _ _ _ _ _ _ _ _ Hok Hsz Hk Hq1). cbn [bind].
      destruct (IH (ms1 ++ [m]) qs' (upd_write st c Ured lpf w (length ms1) (m, q) an) (Some (mb_law m)))
        as [prev' IH'].
      + rewrite <- app_assoc. reflexivity.
      + apply upd_write_sizes; auto. apply in_app_iff. right. left. reflexivity.
      + pose proof (upd_write_frame st c Ured lpf w (length ms1) (m, q) an) as Hfr. cbn zeta in Hfr.
        destruct Hfr as (-> & -> & _). rewrite app_length. cbn [length]. rewrite Nat.add_1_r.
        eapply quants_ext; [|exact Hq2]. intros j Hj. symmetry. apply upd_write_state_other. lia.
      + exists prev'. rewrite IH'. rewrite app_length. cbn [length]. rewrite Nat.add_1_r. reflexivity.
  Qed.

  Lemma loop_inv c ms st Ured lpf w : truss_ok c ms ->
    forall ms2 ms1 an prev s', ms = ms1 ++ ms2 -> sizes_ok c ms an ->
    foldM (elem_step c st Ured lpf w) (map mb_label ms2) (an, prev) = Ok s' ->
    exists qs, quants c (a_U an) (a_U0 an) (state_row c an) (length ms1) ms2 qs.
  Proof.
    intros Hok. induction ms2 as [|m ms2 IH]; intros ms1 an prev s' Hms Hsz H.
    - exists []. constructor.
    - cbn [map foldM] in H. mstep H. subst ms.
      assert (Hk : nth_error (ms1 ++ m :: ms2) (length ms1) = Some m).
      { rewrite nth_error_app2, Nat.sub_diag by lia. reflexivity. }
      destruct (elem_step_inv _ _ _ _ _ _ _ _ _ _ _ Hok Hsz Hk Ha) as [q Hq].
      rewrite (elem_step_ok _ _ _ _ _ _ _ _ _ _ _ Hok Hsz Hk Hq) in Ha. injection Ha as <-.
      apply (IH (ms1 ++ [m])) in H.
      + destruct H as [qs Hqs]. exists (q :: qs). constructor; [exact Hq|].
        pose proof (upd_write_frame st c Ured lpf w (length ms1) (m, q) an) as Hfr. cbn zeta in Hfr.
        destruct Hfr as (E1 & E2 & _). rewrite E1, E2 in Hqs.
        rewrite app_length in Hqs. cbn [length] in Hqs. rewrite Nat.add_1_r in Hqs.
        eapply quants_ext; [|exact Hqs]. intros j Hj. apply upd_write_state_other. lia.
      + rewrite <- app_assoc. reflexivity.
      + apply upd_write_sizes; auto. apply in_app_iff. right. left. reflexivity.
  Qed.

  Lemma elem_loop_ok c ms st Ured lpf w an qs :
    truss_ok c ms -> sizes_ok c ms an ->
    quants c (a_U an) (a_U0 an) (state_row c an) 0 ms qs ->
    elem_loop c st Ured lpf w an = Ok (loop_an st c Ured lpf w (zipk 0 ms qs) an).
  Proof.
    intros Hok Hsz Hq. unfold elem_loop.
    assert (Hl : el_labels (c_elems c) = map mb_label ms) by (destruct Hok as (_ & _ & (H & _) & _); exact H).
    rewrite Hl. destruct (loop_ok c ms st Ured lpf w Hok ms [] qs an None eq_refl Hsz Hq) as [p E].
    cbn [length] in E. rewrite E. reflexivity.
  Qed.

  Lemma elem_loop_inv c ms st Ured lpf w an an' :
    truss_ok c ms -> sizes_ok c ms an -> elem_loop c st Ured lpf w an = Ok an' ->
    exists qs, quants c (a_U an) (a_U0 an) (state_row c an) 0 ms qs /\
               an' = loop_an st c Ured lpf w (zipk 0 ms qs) an.
  Proof.
    intros Hok Hsz H. pose proof H as H'. unfold elem_loop in H'. mstep H'.
    assert (Hl : el_labels (c_elems c) = map mb_label ms) by (destruct Hok as (_ & _ & (E & _) & _); exact E).
    rewrite Hl in Ha. destruct (loop_inv c ms st Ured lpf w Hok ms [] an None _ eq_refl Hsz Ha) as [qs Hq].
    exists qs. split; [exact Hq|].
    rewrite (elem_loop_ok _ _ _ _ _ _ _ _ Hok Hsz Hq) in H. congruence.
  Qed.

  (** ** Projections of the result of the loop *)
  Lemma loop_proj {A} (p : analysis F -> A) (stepf : A -> nat * (member F * truss_q) -> A)
        st c Ured lpf w l an :
    (forall x a, p (upd_write st c Ured lpf w (fst x) (snd x) a) = stepf (p a) x) ->
    p (loop_an st c Ured lpf w l an) = fold_left stepf l (p an).
  Proof.
    intros H. revert an. unfold loop_an. induction l as [|x l IH]; intros an; cbn [fold_left]; auto.
    rewrite IH, H. reflexivity.
  Qed.

  Lemma loop_same {A} (p : analysis F -> A) st c Ured lpf w l an :
    (forall x a, p (upd_write st c Ured lpf w (fst x) (snd x) a) = p a) ->
    p (loop_an st c Ured lpf w l an) = p an.
  Proof.
    intros H. rewrite (loop_proj p (fun a _ => a)) by exact H.
    generalize (p an). induction l; cbn; auto.
  Qed.

  Lemma loop_frame st c Ured lpf w l an :
    let an' := loop_an st c Ured lpf w l an in
    a_U an' = a_U an /\ a_U0 an' = a_U0 an /\ a_step an' = a_step an /\ a_g an' = a_g an /\
    a_DOF0 an' = a_DOF0 an /\ a_DOF1 an' = a_DOF1 an /\ a_Ured an' = a_Ured an /\
    a_dVmax an' = a_dVmax an /\ a_j an' = a_j an /\ a_Kred an' = a_Kred an /\ a_Kmod an' = a_Kmod an /\
    a_f0red an' = a_f0red an /\ a_fconst an' = a_fconst an /\ a_forces an' = a_forces an.
  Proof.
    cbn zeta. repeat split; apply loop_same; intros x a; apply upd_write_frame.
  Qed.

  Lemma fold_combine_snd {A B C} (f : C -> B -> C) (la : list A) (lb : list B) x :
    length la = length lb ->
    fold_left (fun a p => f a (snd p)) (combine la lb) x = fold_left f lb x.
  Proof.
    revert lb x. induction la as [|a la IH]; intros [|b lb] x H; try discriminate; cbn; auto.
  Qed.

  Lemma loop_r c Ured lpf w k ms qs an : length qs = length ms ->
    a_r (loop_an StG c Ured lpf w (zipk k ms qs) an) = fold_left (r_member c) (combine ms qs) (a_r an).
  Proof.
    intros Hl. rewrite (loop_proj a_r (fun r x => r_member c r (snd x))).
    - apply fold_combine_snd. rewrite seq_length, combine_length. lia.
    - intros x a. unfold upd_write, upd_an. destruct (w && _); reflexivity.
  Qed.

  Lemma loop_K c Ured lpf w k ms qs an : length qs = length ms ->
    a_K (loop_an StK c Ured lpf w (zipk k ms qs) an) = fold_left (k_member c) (combine ms qs) (a_K an).
  Proof.
    intros Hl. rewrite (loop_proj a_K (fun r x => k_member c r (snd x))).
    - apply fold_combine_snd. rewrite seq_length, combine_length. lia.
    - intros x a. unfold upd_write, upd_an. destruct (w && _); reflexivity.
  Qed.

  Lemma fold_set_seq {A B} (f : B -> A) (xs : list B) k (s : list A) :
    length s = k + length xs ->
    fold_left (fun s p => set_nth (fst p) (f (snd p)) s) (combine (seq k (length xs)) xs) s
    = firstn k s ++ map f xs.
  Proof.
    revert k s. induction xs as [|x xs IH]; intros k s Hl.
    - cbn in *. rewrite firstn_all2 by lia. rewrite app_nil_r. reflexivity.
    - cbn [length seq combine fold_left fst snd map]. rewrite IH by (rewrite set_nth_length; cbn in Hl; lia).
      cbn in Hl. assert (Hk : k < length s) by lia.
      assert (E : firstn (S k) (set_nth k (f x) s) = firstn k s ++ [f x]).
      { clear - Hk. revert k Hk. induction s as [|y s IH]; intros k Hk; cbn in Hk; [lia|].
        destruct k as [|k]; [reflexivity|]. cbn [set_nth firstn app]. f_equal. apply (IH k). lia. }
      rewrite E, <- app_assoc. reflexivity.
  Qed.

  Lemma map_combine_snd {A B C} (f : B -> C) (la : list A) (lb : list B) :
    length la = length lb -> map (fun x => f (snd x)) (combine la lb) = map f lb.
  Proof.
    revert lb. induction la as [|a la IH]; intros [|b lb] H; try discriminate; cbn; auto.
    f_equal. auto.
  Qed.

  Lemma loop_row {A} (p : analysis F -> list A) (f : truss_q (F:=F) -> A) c Ured lpf w ms qs an :
    length qs = length ms -> length (p an) = length ms ->
    (forall x a, p (upd_write StG c Ured lpf w (fst x) (snd x) a)
                 = set_nth (fst x) (f (snd (snd x))) (p a)) ->
    p (loop_an StG c Ured lpf w (zipk 0 ms qs) an) = map f qs.
  Proof.
    intros Hl Hp H. rewrite (loop_proj p (fun s x => set_nth (fst x) (f (snd (snd x))) s)) by exact H. unfold zipk.
    pose proof (fold_set_seq (fun mq : member F * truss_q => f (snd mq)) (combine ms qs) 0 (p an)) as E.
    rewrite combine_length in E. replace (Nat.min (length ms) (length qs)) with (length ms) in E by lia.
    rewrite E by (cbn; lia). cbn [firstn app]. apply map_combine_snd. auto.
  Qed.

  Lemma loop_stretch c Ured lpf w ms qs an : length qs = length ms -> length (a_stretch an) = length ms ->
    a_stretch (loop_an StG c Ured lpf w (zipk 0 ms qs) an) = map q_lam qs.
  Proof. intros. apply loop_row; auto. intros x a. unfold upd_write, upd_an. destruct (w && _); reflexivity. Qed.
  Lemma loop_stress c Ured lpf w ms qs an : length qs = length ms -> length (a_stress an) = length ms ->
    a_stress (loop_an StG c Ured lpf w (zipk 0 ms qs) an) = map q_stress qs.
  Proof. intros. apply loop_row; auto. intros x a. unfold upd_write, upd_an. destruct (w && _); reflexivity. Qed.
  Lemma loop_force c Ured lpf w ms qs an : length qs = length ms -> length (a_force an) = length ms ->
    a_force (loop_an StG c Ured lpf w (zipk 0 ms qs) an) = map q_N qs.
  Proof. intros. apply loop_row; auto. intros x a. unfold upd_write, upd_an. destruct (w && _); reflexivity. Qed.

  Lemma loop_state_keep st c Ured lpf l an :
    a_state (loop_an st c Ured lpf false l an) = a_state an.
  Proof. apply loop_same. intros x a. unfold upd_write, upd_an. cbn. destruct st; reflexivity. Qed.

  Lemma loop_lpf_keep st c Ured lpf l an :
    a_lpf (loop_an st c Ured lpf false l an) = a_lpf an /\
    a_Vred (loop_an st c Ured lpf false l an) = a_Vred an.
  Proof. split; apply loop_same; intros x a; unfold upd_write, upd_an; cbn; destruct st; reflexivity. Qed.

  Lemma loop_stage_G st c Ured lpf w l an : st = StG ->
    a_K (loop_an st c Ured lpf w l an) = a_K an.
  Proof. intros ->. apply loop_same. intros x a. unfold upd_write, upd_an. destruct (w && _); reflexivity. Qed.

  Lemma loop_stage_K c Ured lpf w l an :
    let an' := loop_an StK c Ured lpf w l an in
    a_r an' = a_r an /\ a_stretch an' = a_stretch an /\ a_stress an' = a_stress an /\ a_force an' = a_force an.
  Proof.
    cbn zeta. repeat split; apply loop_same; intros x a; unfold upd_write, upd_an; destruct (w && _); reflexivity.
  Qed.

  Lemma loop_sizes st c ms Ured lpf w l an : truss_ok c ms ->
    (forall x, In x l -> In (fst (snd x)) ms) -> sizes_ok c ms an ->
    sizes_ok c ms (loop_an st c Ured lpf w l an).
  Proof.
    intros Hok. revert an. unfold loop_an. induction l as [|[k [m q]] l IH]; intros an Hl Hsz; cbn [fold_left]; auto.
    apply IH; [intros; apply Hl; right; auto|]. apply upd_write_sizes; auto.
    apply (Hl (k, (m, q))). left. reflexivity.
  Qed.

  Lemma zipk_In k ms qs x : In x (zipk k ms qs) -> In (fst (snd x)) ms.
  Proof.
    destruct x as [i [m q]]. unfold zipk. intros H. apply in_combine_r in H. apply in_combine_l in H. exact H.
  Qed.

  (** State table after a loop with the write flag. *)
  Lemma loop_state_write c Ured lpf ms qs an sv rows :
    (0 < c_nstatev c)%Z -> a_state an = Some sv -> length sv = length ms -> length qs = length ms ->
    map q_state qs = map Some rows ->
    a_state (loop_an StG c Ured lpf true (zipk 0 ms qs) an) = Some rows.
  Proof.
    intros Hn Hs Hl Hq Hrows.
    assert (Hz : (0 <? c_nstatev c)%Z = true) by (apply Z.ltb_lt; exact Hn).
    rewrite (loop_proj a_state (fun s x => match s with Some sv => Some (upd_state StG (fst x) (snd (snd x)) sv) | None => None end)).
    2:{ intros x a. unfold upd_write. rewrite Hz. cbn. reflexivity. }
    rewrite Hs. unfold zipk.
    assert (G : forall (ms : list (member F)) (qs : list (truss_q (F:=F))) rows k (sv : list (list F)), length qs = length ms -> map q_state qs = map Some rows ->
       length sv = k + length ms ->
       fold_left (fun s x => match s with Some sv => Some (upd_state StG (fst x) (snd (snd x)) sv) | None => None end)
         (combine (seq k (length ms)) (combine ms qs)) (Some sv) = Some (firstn k sv ++ rows)).
    { clear. induction ms as [|m ms IH]; intros qs rows k sv Hq Hr Hl.
      - destruct qs; [|discriminate]. destruct rows; [|discriminate]. cbn in *.
        rewrite firstn_all2, app_nil_r by lia. reflexivity.
      - destruct qs as [|q qs]; [discriminate|]. destruct rows as [|row rows]; [discriminate|].
        cbn [map] in Hr. injection Hr as Hr1 Hr2. cbn in Hq, Hl.
        cbn [length seq combine fold_left fst snd]. unfold upd_state at 2. rewrite Hr1.
        rewrite (IH qs rows (S k)) by (rewrite ?set_nth_length; lia || auto).
        f_equal.
        assert (Hk : k < length sv) by lia.
        assert (E : firstn (S k) (set_nth k row sv) = firstn k sv ++ [row]).
        { clear - Hk. revert k Hk. induction sv as [|y s IH]; intros k Hk; cbn in Hk; [lia|].
          destruct k as [|k]; [reflexivity|]. cbn [set_nth firstn app]. f_equal. apply (IH k). lia. }
        rewrite E, <- app_assoc. reflexivity. }
    rewrite (G ms qs rows 0 sv); auto.
  Qed.
End Facts.
