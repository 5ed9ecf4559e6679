(** * C75: from the calls of a script to the model that is run *)
From Coq Require Import List ZArith Bool Arith Lia Permutation Reals Lra.
Import ListNotations.
From Verif Require Import Num NumR NumFix Vec Handlers Material Analysis Truss Equil Solver Run Default ListFacts EditFacts BuildFacts BuildProps SpecMech SpecBuild
  SpecElem ElemFacts PropElem SpecSolver SpecStep SpecState SpecRun SpecRunR SpecValid SpecScript PropBuild PropDefault MirrorGauss.

Section Listed.
  Context {F : Type} `{NF : Num F}.

  Lemma lookup_rows {A B} (f : B -> A) (lab : B -> Z) (ms : list B) : forall (a : list A), length a = length ms -> NoDup (map lab ms) ->
    (forall b, In b ms -> lookup (lab b) (map lab ms) a = Ok (f b)) -> a = map f ms.
  Proof.
    induction ms as [|b ms IH]; intros [|x a] L Hn H; try discriminate; [reflexivity|]. cbn in *. f_equal.
    - specialize (H b (or_introl eq_refl)). rewrite Z.eqb_refl in H. congruence.
    - inversion_clear Hn as [|? ? H0 H1]. apply IH; [lia|exact H1|]. intros c Hc. specialize (H c (or_intror Hc)).
      destruct (Z.eqb_spec (lab c) (lab b)) as [E|E]; [|exact H]. exfalso. apply H0. rewrite <- E. now apply in_map.
  Qed.

  Lemma read_lists (h : elemH F) ms : arrays_ok h -> el_labels h = map mb_label ms -> NoDup (map mb_label ms) ->
    (forall b, In b ms -> read_back h b) -> lists_members h ms.
  Proof.
    intros (L1 & _ & L3 & L4 & L5 & _) El Hn H.
    assert (Ln : length (el_labels h) = length ms) by (rewrite El; apply map_length).
    unfold lists_members. split; [exact El|].
    repeat apply conj; (apply (lookup_rows _ mb_label); [congruence|exact Hn|]); intros b Hb; destruct (H b Hb) as (H1 & H2 & H3 & H4);
      rewrite <- El, <- gather0_lookup by lia; assumption.
  Qed.

  Lemma lists_read (h : elemH F) ms : lists_members h ms -> NoDup (map mb_label ms) -> forall b, In b ms -> read_back h b.
  Proof.
    intros (E1 & E2 & E3 & E4 & E5) Hn b Hb.
    assert (K : forall A (f : member F -> A) (a : list A), a = map f ms -> gather0 a (positions (mb_label b) (el_labels h)) = Ok (f b)).
    { intros A f a ->. rewrite gather0_lookup by (rewrite E1, !map_length; lia). rewrite E1. clear - Hn Hb.
      induction ms as [|c ms IH]; [destruct Hb|]. cbn in *. inversion_clear Hn as [|? ? H0 H1].
      destruct (Z.eqb_spec (mb_label b) (mb_label c)) as [E|E].
      - destruct Hb as [->|Hb]; [reflexivity|]. exfalso. apply H0. rewrite <- E. now apply in_map.
      - destruct Hb as [->|Hb]; [contradiction|]. exact (IH H1 Hb). }
    unfold read_back. split; [exact (K _ _ _ E2)|]. split; [exact (K _ _ _ E3)|]. split; [exact (K _ _ _ E4)|exact (K _ _ _ E5)].
  Qed.

  Lemma added_float (es : list (element F)) : forall h o, t_int (el_mat h) = false -> t_int (el_geo h) = false ->
    add_elements (Some h) es = Ok o -> exists h', o = Some h' /\ t_int (el_mat h') = false /\ t_int (el_geo h') = false.
  Proof.
    induction es as [|E es IH]; intros h o H1 H2 H; cbn [add_elements foldM] in H; [injection H as <-; eauto|].
    cbn [add_element] in H. unfold tab_vstack in H.
    destruct (length (l_mat E) =? _); [|discriminate]. destruct (length (l_geo E) =? _); [|discriminate]. cbn [bind] in H.
    eapply IH; [| |exact H]; cbn; [rewrite H1|rewrite H2]; reflexivity.
  Qed.

  Lemma raw_calls (els : list (Z * (Z * Z))) : forall h,
    foldM (fun h p => E <- mk_element (fst p) (snd p) 1 1 None None None None ;; add_element h E) els h
    = add_elements h (map (fun p => Elem (fst p) (snd p) 1 1 [PF fnan] [PF fnan] : element F) els).
  Proof.
    induction els as [|p els IH]; intros h; [reflexivity|]. cbn [map add_elements foldM]. cbn [mk_element bind].
    destruct (add_element h _) as [h'| |]; cbn [bind]; [apply IH|reflexivity|reflexivity].
  Qed.
End Listed.

(** The tables of a model made by any calls that add and assign (none that deletes
    elements) describe a truss: for members under their labels, with what the getters
    report. *)
Theorem C75_described : forall F (NF : Num F) ns (os : list (elem_op F)) bs fs h ob of st ms,
  (2 <= length ns)%nat -> NoDup (map fst ns) ->
  (forall l, ~ In (ODel l) os) -> foldM elem_call os None = Ok (Some h) -> NoDup (el_labels h) ->
  add_bounds_U None bs = Ok ob -> (forall r, In r (map snd bs) -> length r = 3%nat) -> add_forces None fs = Ok of ->
  (forall b, In b ms -> In (mb_a b) (map fst ns) /\ In (mb_b b) (map fst ns) /\ mb_a b <> mb_b b) ->
  (described (Model (add_nodes None ns) (Some h) ob of st None) ns ms bs fs <->
   el_labels h = map mb_label ms /\ forall b, In b ms -> read_back h b).
Proof.
  intros F NF ns os bs fs h ob of st ms H2 Hn Hdel Hcalls Hl Hb H3 Hf Hends.
  pose proof (C05_arrays _ _ _ _ Hdel Hcalls) as Hok.
  destruct (C01_added_rows _ _ ns bs fs ob of Hb Hf) as (D1 & D2 & D3). split.
  - intros (_ & _ & _ & (eh & E & Hms) & _ & _ & Hml & _). cbn in E. injection E as <-. split; [apply Hms|]. exact (lists_read _ _ Hms Hml).
  - intros [El Hr]. rewrite El in Hl. repeat (split; [assumption|]). split; [|auto].
    exists h. split; [reflexivity|]. apply read_lists; assumption.
Qed.
Print Assumptions C75_described.

(** The script works: every call succeeds and the bars meant are those of the model. *)
Theorem C75_script : forall F (NF : Num F) log ns els mprop gprop bs fs w,
  (2 <= length ns)%nat -> NoDup (map fst ns) -> els <> [] -> NoDup (map fst els) ->
  (forall l a b, In (l, (a, b)) els -> In a (map fst ns) /\ In b (map fst ns) /\ a <> b) ->
  mprop <> [] -> length gprop = 1%nat ->
  (forall r, In r (map snd bs) -> length r = 3%nat) -> (forall r, In r (map snd fs) -> length r = w) ->
  exists m, readme_script log ns els mprop gprop bs fs = Ok m /\ m_set m = new_settings log /\ (m_bounds m = None <-> bs = []) /\
    described m ns (readme_bars els mprop gprop) bs fs /\ forall b, In b (readme_bars els mprop gprop) -> complete b.
Proof.
  intros F NF log ns els mprop gprop bs fs w H2 Hn He Hne Hends Hm Hg H3 Hw.
  set (es := map (fun p => Elem (fst p) (snd p) 1 1 [PF fnan] [PF fnan] : element F) els).
  assert (Hle : map l_label es = map fst els) by (unfold es; rewrite map_map; reflexivity).
  assert (Hne' : NoDup (map l_label es)) by (rewrite Hle; exact Hne).
  assert (Hes : es <> []) by (unfold es; destruct els; [contradiction|discriminate]).
  destruct (proj2 (proj1 (added_list es Hne' Hes))) as (o & Ho).
  { exists 1%nat, 1%nat. unfold es. intros E HE. apply in_map_iff in HE. destruct HE as (p & <- & _). split; reflexivity. }
  destruct (added_inv es Hne' Hes o Ho) as (h1 & -> & K1 & K2 & K3 & K4).
  assert (Hfl : t_int (el_mat h1) = false /\ t_int (el_geo h1) = false).
  { destruct es as [|E0 es'] eqn:Ees; [contradiction|].
    assert (HE0 : E0 = Elem (l_label E0) (l_conn E0) 1 1 [PF fnan] [PF fnan]).
    { assert (HE : In E0 es) by (rewrite Ees; now left). unfold es in HE. apply in_map_iff in HE. destruct HE as (p & <- & _). reflexivity. }
    cbn [add_elements foldM add_element bind] in Ho. rewrite HE0 in Ho. match type of Ho with foldM _ _ (Some ?h) = _ => destruct (added_float es' h (Some h1) eq_refl eq_refl Ho) as (h' & E & Hh) end.
    injection E as <-. exact Hh. }
  assert (Hwid : t_width (el_mat h1) = 1%nat /\ t_width (el_geo h1) = 1%nat).
  { destruct els as [|p els']; [contradiction|]. destruct (K3 _ (or_introl eq_refl)) as [A B]. cbn in A, B. split; symmetry; assumption. }
  destruct (proj1 (C05_assign_succeeds _ _ h1 All K1) mprop None) as (h2 & E2).
  destruct (C05_assign_material _ _ _ _ _ _ _ K1 E2) as (M1 & M2 & M3 & M4 & M5 & M6). cbv zeta in *.
  assert (Hg2 : t_width (el_geo h2) = 1%nat) by (rewrite M3; apply Hwid).
  destruct (proj1 (proj2 (proj2 (C05_assign_succeeds _ _ h2 All M1))) gprop ltac:(congruence)) as (h3 & E3).
  destruct (C05_assign_geometry _ _ h2 h3 All gprop M1 ltac:(congruence) E3) as (G1 & G2 & G3 & G4).
  destruct (add_bounds_total bs None [] 3 eq_refl (or_introl eq_refl)) as (ob & Hb); [intros r Hr; apply H3; exact Hr|].
  destruct (add_forces_total fs None [] w eq_refl ltac:(discriminate) Hw) as (of & Hf).
  destruct (C01_added_rows _ _ ns bs fs ob of Hb Hf) as (D1 & D2 & D3).
  exists (Model (add_nodes None ns) (Some h3) ob of (new_settings log) None).
  split. { unfold readme_script. rewrite raw_calls. fold es. rewrite Ho. cbn [bind]. rewrite E2. cbn [bind]. rewrite E3. cbn [bind]. rewrite Hb. cbn [bind]. rewrite Hf. reflexivity. }
  split; [reflexivity|]. split.
  { cbn [m_bounds]. split; [intros ->; exact D2|intros ->; cbn in Hb; congruence]. }
  assert (Hlab : map mb_label (readme_bars els mprop gprop) = map fst els) by (unfold readme_bars; rewrite map_map; reflexivity).
  split; [|intros b Hbar; unfold readme_bars in Hbar; apply in_map_iff in Hbar; destruct Hbar as (p & <- & _); split; cbn;
    [destruct gprop; [discriminate|discriminate]|destruct mprop; [contradiction|discriminate]]].
  split; [exact D1|]. split; [exact D2|]. split; [exact D3|]. split.
  2: { split; [exact H2|]. split; [exact Hn|]. split; [rewrite Hlab; exact Hne|]. split; [exact H3|].
       intros b Hbar. unfold readme_bars in Hbar. apply in_map_iff in Hbar. destruct Hbar as ([l [a c]] & <- & Hp). cbn. exact (Hends _ _ _ Hp). }
  exists h3. split; [reflexivity|]. apply read_lists; [exact G1|rewrite G2, M2, K2, Hle, Hlab; reflexivity|rewrite Hlab; exact Hne|].
  intros b Hbar. unfold readme_bars in Hbar. apply in_map_iff in Hbar. destruct Hbar as ([l [a c]] & <- & Hp).
  assert (HE : In (Elem l (a, c) 1 1 [PF fnan] [PF fnan] : element F) es) by (unfold es; apply in_map_iff; exists (l, (a, c)); auto).
  destruct (K4 _ HE) as (F1 & F2 & F3 & F4 & F5). cbn [l_label l_conn l_etype l_mtype l_mat l_geo] in *.
  assert (Hl1 : In l (el_labels h1)) by (rewrite K2, Hle; apply in_map_iff; exists (l, (a, c)); auto).
  destruct (M6 l) as (N1 & _ & N3 & _ & N5). destruct (N5 Hl1 Hl1) as (N6 & N7).
  destruct (G4 l) as (P1 & _ & P3 & P4 & _ & P6).
  assert (Hl2 : In l (el_labels h2)) by (rewrite M2; exact Hl1).
  unfold read_back. cbn [mb_label mb_a mb_b mb_law mb_mat mb_geo fst snd law_code].
  split; [rewrite P1, N1; exact F1|]. split; [rewrite P3, N7; exact F3|]. split.
  - rewrite P4, N6, M5. destruct Hfl as [-> _]. destruct Hwid as [-> _].
    replace (Nat.max 1 (length mprop) - length mprop)%nat with 0%nat by (destruct mprop; [contradiction|cbn; lia]).
    cbn [andb repeat]. rewrite app_nil_r. reflexivity.
  - rewrite (P6 Hl2 Hl2), M3. destruct Hfl as [_ ->]. reflexivity.
Qed.
Print Assumptions C75_script.

Local Open Scope R_scope.

(** README.md:24-47 for any truss in place of the one bar, in exact arithmetic: the
    script, the build and the run return; every converged increment is in
    equilibrium to 10^-8. *)
Theorem C75_readme : forall argsortZ argsortF solve log ns els mprop gprop bs fs w l0 c0,
  argsort_ok argsortZ -> (forall l, Permutation (argsortF l) (seq 0 (length l))) ->
  (forall M b, length M = length b -> length (solve M b) = length b) ->
  (2 <= length ns)%nat -> NoDup (map fst ns) -> els <> [] -> NoDup (map fst els) ->
  (forall l a b, In (l, (a, b)) els -> In a (map fst ns) /\ In b (map fst ns) /\ a <> b) ->
  mprop <> [] -> length gprop = 1%nat ->
  (forall r, In r (map snd bs) -> length r = 3%nat) -> (forall r, In r (map snd fs) -> length r = w) -> (3 <= w)%nat -> fs <> [] ->
  matches ns bs -> matches ns fs ->
  In l0 (map fst ns) -> (c0 < 3)%nat -> nth c0 (row_for bs [1; 1; 1]%Z l0) 0%Z = 1%Z ->
  exists m m1 m2 out lg, readme_script log ns els mprop gprop bs fs = Ok m /\
    build argsortZ m = Ok m1 /\ run argsortF solve m1 4 = Ok (m2, out) /\ ran_as argsortF solve m1 4 m2 out [lg] /\
    (length (lg_recs lg) <= 50)%nat /\
    ((length (lg_recs lg) < 50)%nat -> exists e, In e (lg_out lg) /\ error_line e) /\
    (exists recs, good_part lg recs /\
      along (fun x0 a0 x a => (residual_is a /\ balanced (powerRZ 10 (- 8)) x0 x a) \/ x = x0)
            (a_Ured (lg_start lg) ++ [f0]) (lg_start lg) recs).
Proof.
  intros argsortZ argsortF solve log ns els mprop gprop bs fs w l0 c0 HA Hsort Hsolve H2 Hn He Hne Hends Hm Hg H3 Hw Hw3 Hfs Hmb Hmf Hl0 Hc0 Hfree.
  destruct (C75_script R _ log ns els mprop gprop bs fs w H2 Hn He Hne Hends Hm Hg H3 Hw) as (m & Hscr & Hset & Hb & Hd & Hc).
  destruct (C74_numbers argsortZ argsortF solve log m ns _ bs fs l0 c0 HA Hsort Hsolve Hd Hset Hc Hfs) as (m1 & m2 & out & lg & A1 & A2 & A3 & A4 & A5 & A6 & _);
    try assumption.
  - intros r Hr. rewrite (Hw r Hr). exact Hw3.
  - destruct bs; [left; apply Hb; reflexivity|right; discriminate].
  - exists m, m1, m2, out, lg. auto 10.
Qed.
Print Assumptions C75_readme.

(** The script of the README itself. *)
Example C75_meets : exists m m1 m2 out,
  readme_script 2 [(1%Z, V3 0 0 0); (2%Z, V3 1 0 0)] [(1, (1, 2))]%Z [PI 1] [PI 1] [(1, [0; 0; 0]); (2, [1; 0; 0])]%Z [(2%Z, [1; 0; 0])] = Ok m /\
  build argsort_ins m = Ok m1 /\ run (fun l => seq 0 (length l)) gauss m1 4 = Ok (m2, out).
Proof.
  destruct (C75_readme argsort_ins (fun l => seq 0 (length l)) gauss 2 [(1%Z, V3 0 0 0); (2%Z, V3 1 0 0)] [(1, (1, 2))]%Z [PI 1] [PI 1]
    [(1, [0; 0; 0]); (2, [1; 0; 0])]%Z [(2%Z, [1; 0; 0])] 3%nat 2%Z 0%nat) as (m & m1 & m2 & out & lg & A1 & A2 & A3 & _); cbn; try lia; try discriminate; try reflexivity.
  - apply argsort_ins_ok.
  - apply gauss_sign_free.
  - repeat constructor; cbn; intros H; repeat destruct H as [H|H]; try discriminate; auto.
  - repeat constructor; cbn; tauto.
  - intros l a b [E|[]]. injection E as <- <- <-. repeat split; auto; discriminate.
  - intros r [<-|[<-|[]]]; reflexivity.
  - intros r [<-|[]]; reflexivity.
  - split; [repeat constructor; cbn; intros H; repeat destruct H as [H|H]; try discriminate; auto|]. intros l. cbn. tauto.
  - split; [repeat constructor; cbn; intros H; repeat destruct H as [H|H]; try discriminate; auto|]. intros l. cbn. tauto.
  - eauto 10.
Qed.
