(** * Facts about plot_model *)
From Coq Require Import List ZArith NArith Bool Arith String Ascii Sorting.Sorted Permutation Lia.
Import ListNotations.
From Verif Require Import Num Vec Handlers Analysis Run Plot SpecPlot ListFacts PlotFacts.

Lemma ok_inj {A} (a b : A) : Ok a = Ok b -> a = b.
Proof. congruence. Qed.

Section Scene.
  Context {F : Type} `{NF : Num F}.
  Implicit Types (r : analysis F) (R : list (analysis F)).

  Lemma project_shown v (p : v3 F) : project v p = shown v p.
  Proof. destruct v; reflexivity. Qed.

  Definition mstep_ v (X : list (v3 F)) (con : option (list F)) (acc : list (list F * list F * option F)) (ke : nat * (Z * Z)) :=
    let '(k, (na, ne)) := ke in
    col <- match con with
           | None => Ok None
           | Some data => match nth_error data k with Some c => Ok (Some c) | None => Err IndexError end
           end ;;
    a <- py_get X (na - 1) ;; b <- py_get X (ne - 1) ;;
    Ok (acc ++ [(project v a, project v b, col)]).

  Definition member_is v (X : list (v3 F)) (con : option (list F)) (k : nat) (na ne : Z) (x : list F * list F * option F) : Prop :=
    exists a b, py_get X (na - 1) = Ok a /\ py_get X (ne - 1) = Ok b /\
      fst (fst x) = shown v a /\ snd (fst x) = shown v b /\
      match con with None => snd x = None | Some data => exists c, nth_error data k = Some c /\ snd x = Some c end.

  Lemma draw_members_spec v conns X con ms :
    draw_members v conns X con = Ok ms ->
    List.length ms = List.length conns /\
    forall k na ne, nth_error conns k = Some (na, ne) ->
      exists x, nth_error ms k = Some x /\ member_is v X con k na ne x.
  Proof.
    intros H. unfold draw_members in H.
    assert (G : forall cs s acc ms,
      foldM (mstep_ v X con) (combine (seq s (List.length cs)) cs) acc = Ok ms ->
      exists tl, ms = acc ++ tl /\ List.length tl = List.length cs /\
        forall k na ne, nth_error cs k = Some (na, ne) -> exists x, nth_error tl k = Some x /\ member_is v X con (s + k) na ne x).
    { clear. induction cs as [|[na ne] cs IH]; intros s acc ms H; cbn in H.
      - injection H as <-. exists []. rewrite app_nil_r. split; [reflexivity|]. split; [reflexivity|].
        intros [|k]; discriminate.
      - apply bind_ok in H. destruct H as (acc1 & H1 & H). apply bind_ok in H1. destruct H1 as (col & Hc & H1).
        apply bind_ok in H1. destruct H1 as (a & Ha & H1). apply bind_ok in H1. destruct H1 as (b & Hb & H1).
        injection H1 as <-. apply IH in H. destruct H as (tl & -> & Hl & Hn).
        exists ((project v a, project v b, col) :: tl). rewrite <- app_assoc. split; [reflexivity|].
        split; [cbn; now f_equal|]. intros [|k] na' ne' Hk; cbn [nth_error] in *.
        + injection Hk as <- <-. eexists. split; [reflexivity|]. exists a, b. cbn [fst snd]. rewrite !project_shown, Nat.add_0_r.
          repeat split; auto. destruct con as [data|].
          * destruct (nth_error data s) as [c|] eqn:E; [|discriminate]. injection Hc as <-. eauto.
          * now injection Hc as <-.
        + destruct (Hn _ _ _ Hk) as (x & Hx & M). exists x. split; [exact Hx|]. now replace (s + S k) with (S s + k) by lia. }
    apply (G conns 0 [] ms) in H. destruct H as (tl & -> & H). exact H.
  Qed.

  Lemma draw_members_total v conns (X : list (v3 F)) con :
    (forall na ne, In (na, ne) conns -> (1 <= na <= Z.of_nat (List.length X))%Z /\ (1 <= ne <= Z.of_nat (List.length X))%Z) ->
    (forall data, con = Some data -> List.length data = List.length conns) ->
    exists ms, draw_members v conns X con = Ok ms.
  Proof.
    intros Hc Hd. unfold draw_members. apply foldM_total. intros [k [na ne]] acc Hin.
    assert (Hk : k < List.length conns).
    { apply in_combine_l in Hin. apply in_seq in Hin. lia. }
    apply in_combine_r in Hin. destruct (Hc _ _ Hin) as [H1 H2].
    assert (P : forall z, (1 <= z <= Z.of_nat (List.length X))%Z -> exists a, py_get X (z - 1) = Ok a).
    { intros z Hz. destruct (nth_error X (Z.to_nat (z - 1))) as [a|] eqn:E.
      - exists a. apply py_get_nth. exists (Z.to_nat (z - 1)). split; [apply py_pos_nonneg; lia|exact E].
      - apply nth_error_None in E. lia. }
    destruct (P _ H1) as (a & Ea). destruct (P _ H2) as (b & Eb). rewrite Ea, Eb. cbn [bind].
    destruct con as [data|]; cbn [bind]; [|eauto].
    destruct (nth_error data k) as [c|] eqn:E; cbn [bind]; [eauto|].
    apply nth_error_None in E. rewrite (Hd _ eq_refl) in E. lia.
  Qed.

  Lemma add_rows_spec (a b c : list (v3 F)) : add_rows a b = Ok c ->
    List.length b = List.length a /\ List.length c = List.length a /\
    forall p x, nth_error c p = Some x <-> exists X U, nth_error a p = Some X /\ nth_error b p = Some U /\ x = vadd X U.
  Proof.
    unfold add_rows. destruct (Nat.eqb_spec (List.length a) (List.length b)) as [E|E]; [|discriminate].
    intros H. injection H as <-. split; [auto|]. split; [rewrite map2_length; lia|].
    intros p x. rewrite nth_error_map2. split.
    - destruct (nth_error a p), (nth_error b p); try discriminate. intros H. injection H as <-. eauto.
    - intros (X & U & -> & -> & ->). reflexivity.
  Qed.

  Lemma total_load_spec (rows fc f : list (list F)) lpf step : total_load rows fc lpf step = Ok f ->
    List.length fc = List.length rows /\ List.length f = List.length rows /\
    forall p c row, nth_error fc p = Some c -> nth_error rows p = Some row ->
      exists fr, nth_error f p = Some fr /\ List.length fr = 3 /\
        forall d, d < 3 -> nth d fr f0 = fadd (nth d c f0) (fmul lpf (nth (3 * Z.to_nat (step - 1) + d) row f0)).
  Proof.
    unfold total_load. set (s := Z.to_nat (step - 1)). cbv zeta. intros H.
    destruct (Nat.eqb_spec (List.length fc) (List.length (map (fun q => firstn 3 (skipn (3 * s) q)) rows))) as [E|E]; [|discriminate].
    cbn [andb] in H. destruct (forallb _ fc) eqn:E1; [|discriminate]. cbn [andb] in H. destruct (forallb _ (map _ rows)) eqn:E2; [|discriminate].
    apply ok_inj in H. subst f. rewrite map_length in E. split; [auto|]. split; [rewrite map2_length, map_length; lia|].
    intros p c row Hc Hr. rewrite nth_error_map2, Hc, nth_error_map, Hr. unfold option_map.
    rewrite forallb_forall in E1, E2. specialize (E1 c (nth_error_In _ _ Hc)).
    specialize (E2 _ (in_map (fun q => firstn 3 (skipn (3 * s) q)) _ _ (nth_error_In _ _ Hr))).
    cbv beta in E2. apply Nat.eqb_eq in E1, E2.
    destruct c as [|c0 [|c1 [|c2 [|? ?]]]]; try discriminate.
    assert (Hn : forall d, d < 3 -> nth d (firstn 3 (skipn (3 * s) row)) f0 = nth (3 * s + d) row f0).
    { intros d Hd. rewrite <- (firstn_skipn (3 * s) row) at 2. rewrite app_nth2.
      - rewrite firstn_length. rewrite firstn_length, skipn_length in E2.
        replace (3 * s + d - min (3 * s) (List.length row)) with d by lia.
        rewrite <- (firstn_skipn 3 (skipn (3 * s) row)) at 2. rewrite app_nth1; [reflexivity|].
        rewrite firstn_length, skipn_length. lia.
      - rewrite firstn_length. lia. }
    destruct (firstn 3 (skipn (3 * s) row)) as [|b0 [|b1 [|b2 [|? ?]]]]; try discriminate.
    eexists. split; [reflexivity|]. split; [reflexivity|].
    intros d Hd. rewrite <- Hn by exact Hd. do 3 (destruct d as [|d]; [reflexivity|]). lia.
  Qed.

  Lemma node_arrows_spec v scale f (p : v3 F) a :
    v <> VOther ->
    In a (node_arrows v scale f p) <->
    exists d, sees v d /\ feqb (nth (axis_num d) f f0) f0 = false /\
      a = (shown v p, shown v (along_ax d (fmul scale (nth (axis_num d) f f0)))).
  Proof.
    intros Hv. unfold node_arrows. rewrite in_flat_map. split.
    - intros (d & Hd & Ha). destruct (feqb (nth d f f0) f0) eqn:E; [contradiction|]. destruct Ha as [<-|[]].
      rewrite project_shown.
      assert (Hd3 : exists ax, sees v ax /\ axis_num ax = d).
      { destruct v; cbn in Hd; repeat destruct Hd as [<-|Hd]; try contradiction;
          (exists AxX; split; [exact Logic.I|reflexivity]) || (exists AxY; split; [exact Logic.I|reflexivity]) || (exists AxZ; split; [exact Logic.I|reflexivity]). }
      destruct Hd3 as (ax & Hs & <-). exists ax. split; [exact Hs|]. split; [exact E|]. f_equal.
      destruct v, ax; cbn in Hs |- *; try contradiction; reflexivity.
    - intros (ax & Hs & E & ->). exists (axis_num ax). split.
      + destruct v, ax; cbn in Hs |- *; try contradiction; auto.
      + rewrite E. left. rewrite project_shown. f_equal. destruct v, ax; cbn in Hs |- *; try contradiction; reflexivity.
  Qed.

  Lemma p_model_parts coords conns rows R v c scale cbar inc sc :
    p_model coords conns rows R v c scale cbar inc = Ok sc -> (- Z.of_nat (List.length R) <= inc)%Z ->
    exists k r con f X ms, shows R inc k r /\ v <> VOther /\
      contour_of r (if Nat.eqb k 0 then None else c) cbar = Ok con /\
      total_load rows (a_fconst r) (if Nat.eqb k 0 then f1 else a_lpf r) (a_step r) = Ok f /\
      add_rows coords (a_U r) = Ok X /\ draw_members v conns X (option_map fst con) = Ok ms /\
      sc = Scene (if Nat.eqb k 0 then None else Some (Z.of_nat k))
             (flat_map (fun fp => node_arrows v scale (fst fp) (snd fp)) (combine f X))
             (map (project v) X) ms (option_map snd con).
  Proof.
    intros H Hinc. unfold p_model in H. cbv zeta in H.
    set (i := if (inc <? 0)%Z then (Z.of_nat (List.length R) + inc)%Z else inc) in H.
    assert (Hi : (0 <= i)%Z) by (unfold i; destruct (Z.ltb_spec inc 0); lia).
    apply bind_ok in H. destruct H as (r & Hr & H).
    apply py_get_nth in Hr. destruct Hr as (k & Hk & Hr).
    assert (Ek : i = Z.of_nat k).
    { unfold py_pos in Hk. destruct (Z.leb_spec 0 i); [|lia]. cbn [andb] in Hk.
      destruct (Z.ltb_spec i (Z.of_nat (List.length R))); [injection Hk as <-; lia|].
      destruct (Z.ltb_spec i 0); [lia|]. rewrite andb_false_r in Hk. discriminate. }
    assert (Eu : (i =? 0)%Z = Nat.eqb k 0).
    { rewrite Ek. destruct (Nat.eqb_spec k 0) as [->|]; [reflexivity|]. apply Z.eqb_neq. lia. }
    rewrite Eu in H.
    apply bind_ok in H. destruct H as (con & Hcon & H).
    apply bind_ok in H. destruct H as (f & Hf & H).
    apply bind_ok in H. destruct H as (X & HX & H).
    exists k, r, con, f, X.
    destruct v; try discriminate;
      (apply bind_ok in H; destruct H as (ms & Hm & H); exists ms;
       split; [split; [exact Hr|unfold i in Ek; destruct (Z.ltb_spec inc 0); lia]|];
       split; [discriminate|]; repeat split; auto;
       destruct con as [con|]; [destruct conns as [|e conns]; [discriminate|]|]; apply ok_inj in H; subst sc; rewrite Ek; reflexivity).
  Qed.

  Lemma contour_of_spec r c cbar con : contour_of r c cbar = Ok con ->
    match c with
    | None => con = None
    | Some (CName name) =>
        (con = None /\ forall l, ~ named_values name r l) \/
        exists l lim, con = Some (l, lim) /\ named_values name r l /\
          match cbar with
          | Some lm => lim = lm
          | None => if String.eqb name "stretch"
                    then exists m, pymax (map (fun s => fabs (fsub s f1)) l) = Ok m /\ lim = (fsub f1 m, fadd f1 m)
                    else exists m, pymax (map fabs l) = Ok m /\ lim = (fopp m, m)
          end
    | Some (CTuple name lim) => exists l, con = Some (l, lim) /\ named_values name r l
    end.
  Proof.
    assert (D : forall name, match contour_data name r with
      | None => forall l, ~ named_values name r l
      | Some l => named_values name r l end).
    { intros name. unfold contour_data, named_values.
      destruct (String.eqb_spec name "stretch") as [->|N1]; [auto|].
      destruct (String.eqb_spec name "force") as [->|N2]; [auto|].
      destruct (String.eqb_spec name "stress") as [->|N3]; [auto|]. intros l. tauto. }
    destruct c as [[name|name lim]|]; cbn [contour_of]; intros H.
    - specialize (D name). destruct (contour_data name r) as [l|]; [right|left; injection H as <-; auto].
      apply bind_ok in H. destruct H as (lim & Hl & H). injection H as <-. exists l, lim. split; [reflexivity|]. split; [exact D|].
      destruct cbar as [lm|]; [now injection Hl as <-|].
      destruct (String.eqb name "stretch"); apply bind_ok in Hl; destruct Hl as (m & Hm & Hl); exists m; split; auto; now injection Hl as <-.
    - specialize (D name). destruct (contour_data name r) as [l|]; [|discriminate]. injection H as <-. eauto.
    - now injection H as <-.
  Qed.
End Scene.
