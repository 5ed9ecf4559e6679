(** * Facts about the order of the movie frames *)
From Coq Require Import List ZArith NArith Bool Arith String Ascii Decimal DecimalString DecimalN Sorting.Sorted Permutation Lia.
Import ListNotations.
From Verif Require Import Num Vec Handlers Analysis Run Plot SpecPlot ListFacts BuildFacts PlotFacts.

(** ** Order of strings *)
Definition slt (s t : string) : Prop := String.compare s t = Lt.

Lemma ascii_compare_trans a b c : Ascii.compare a b = Lt -> Ascii.compare b c = Lt -> Ascii.compare a c = Lt.
Proof. unfold Ascii.compare. rewrite !N.compare_lt_iff. lia. Qed.

Lemma ascii_compare_refl a : Ascii.compare a a = Eq.
Proof. unfold Ascii.compare. apply N.compare_refl. Qed.

Lemma slt_trans s : forall t u, slt s t -> slt t u -> slt s u.
Proof.
  unfold slt. induction s as [|a s IH]; intros [|b t] [|c u] H1 H2; cbn in *; try discriminate; auto.
  destruct (Ascii.compare a b) eqn:E1; try discriminate.
  - apply Ascii.compare_eq_iff in E1. subst b. destruct (Ascii.compare a c) eqn:E2; try discriminate; [|reflexivity].
    eapply IH; eauto.
  - destruct (Ascii.compare b c) eqn:E2; try discriminate.
    + apply Ascii.compare_eq_iff in E2. subst c. now rewrite E1.
    + now rewrite (ascii_compare_trans _ _ _ E1 E2).
Qed.

Lemma scompare_refl s : String.compare s s = Eq.
Proof. induction s as [|a s IH]; cbn; [reflexivity|]. now rewrite ascii_compare_refl. Qed.

Lemma slt_irrefl s : ~ slt s s.
Proof. unfold slt. rewrite scompare_refl. discriminate. Qed.

Lemma leb_slt s t : String.leb s t = true <-> s = t \/ slt s t.
Proof.
  unfold String.leb, slt. destruct (String.compare s t) eqn:E; split; intros H; auto; try discriminate.
  - left. now apply String.compare_eq_iff.
  - destruct H as [->|H]; [|congruence]. rewrite scompare_refl in E. discriminate.
Qed.

Lemma leb_false s t : String.leb s t = false -> slt t s.
Proof.
  unfold String.leb, slt. rewrite (String.compare_antisym s t). destruct (String.compare t s); cbn; try discriminate. reflexivity.
Qed.

(** ** sorted *)
Lemma insert_perm s l : Permutation (insert s l) (s :: l).
Proof.
  induction l as [|t l IH]; cbn; [reflexivity|]. destruct (String.leb s t); [reflexivity|].
  rewrite IH. apply perm_swap.
Qed.

Lemma sorted_perm l : Permutation (sorted l) l.
Proof. induction l as [|s l IH]; cbn; [reflexivity|]. rewrite insert_perm. now constructor. Qed.

Lemma insert_sorted s l : StronglySorted slt l -> ~ In s l -> StronglySorted slt (insert s l).
Proof.
  induction l as [|t l IH]; intros Hs Hn; cbn; [repeat constructor|].
  inversion Hs as [|? ? Hs' Hf]; subst. destruct (String.leb s t) eqn:E.
  - constructor; [exact Hs|]. apply leb_slt in E. destruct E as [->|E]; [exfalso; apply Hn; now left|].
    constructor; [exact E|]. rewrite Forall_forall in *. intros u Hu. eapply slt_trans; eauto.
  - apply leb_false in E. constructor; [apply IH; auto; intros H; apply Hn; now right|].
    rewrite Forall_forall in *. intros u Hu. apply (Permutation_in _ (insert_perm s l)) in Hu.
    destruct Hu as [<-|Hu]; auto.
Qed.

Lemma sorted_sorted l : NoDup l -> StronglySorted slt (sorted l).
Proof.
  induction 1 as [|s l Hn Hd IH]; cbn; [constructor|]. apply insert_sorted; auto.
  intros H. apply Hn. exact (Permutation_in _ (sorted_perm l) H).
Qed.

(** ** File names *)
Definition adjacent (k : nat) : bool :=
  match String.compare (frame_name (Z.of_nat k)) (frame_name (Z.of_nat (S k))) with Lt => true | _ => false end.

Lemma adjacent_all : forallb adjacent (seq 0 999) = true.
Proof. vm_compute. reflexivity. Qed.

Lemma name_lt_nat d : forall k, k + S d < 1000 -> slt (frame_name (Z.of_nat k)) (frame_name (Z.of_nat (k + S d))).
Proof.
  assert (A : forall k, S k < 1000 -> slt (frame_name (Z.of_nat k)) (frame_name (Z.of_nat (S k)))).
  { intros k Hk. pose proof adjacent_all as H. rewrite forallb_forall in H. specialize (H k).
    rewrite in_seq in H. specialize (H ltac:(lia)). unfold adjacent in H. unfold slt.
    destruct (String.compare _ _); congruence. }
  induction d as [|d IH]; intros k Hk.
  - replace (k + 1) with (S k) by lia. apply A. lia.
  - eapply slt_trans; [apply (IH k); lia|]. replace (k + S (S d)) with (S (k + S d)) by lia. apply A. lia.
Qed.

Lemma name_lt i j : (0 <= i < j)%Z -> (j < 1000)%Z -> slt (frame_name i) (frame_name j).
Proof.
  intros H1 H2. pose proof (name_lt_nat (Z.to_nat (j - i - 1)) (Z.to_nat i) ltac:(lia)) as H.
  rewrite Z2Nat.id in H by lia. replace (Z.of_nat (Z.to_nat i + S (Z.to_nat (j - i - 1)))) with j in H by lia. exact H.
Qed.

Lemma name_order i j : (0 <= i < 1000)%Z -> (0 <= j < 1000)%Z -> slt (frame_name i) (frame_name j) -> (i < j)%Z.
Proof.
  intros Hi Hj H. destruct (Z.lt_trichotomy i j) as [L|[->|L]]; [exact L|now apply slt_irrefl in H|].
  exfalso. apply (slt_irrefl (frame_name i)). eapply slt_trans; [exact H|]. apply name_lt; lia.
Qed.

Lemma app_length_str s t : String.length (s ++ t) = String.length s + String.length t.
Proof. induction s as [|a s IH]; cbn; [reflexivity|]. now rewrite IH. Qed.

Lemma app_inv_tail_str u : forall s t : string, (s ++ u)%string = (t ++ u)%string -> s = t.
Proof.
  intros s t H. assert (L : String.length s = String.length t).
  { apply (f_equal String.length) in H. rewrite !app_length_str in H. lia. }
  revert t H L. induction s as [|a s IH]; intros [|b t] H L; cbn in *; try discriminate; [reflexivity|].
  injection H as -> H. f_equal. apply IH; auto.
Qed.

(** The number written in a name, leading zeros included. *)
Lemma read_zeros n k :
  option_map N.of_uint (NilEmpty.uint_of_string (String.concat "" (repeat "0"%string k) ++ NilEmpty.string_of_uint (N.to_uint n))) = Some n.
Proof.
  assert (Z : String.concat "" (repeat "0"%string k) = string_of_list_ascii (repeat "0"%char k)).
  { induction k as [|k IH]; [reflexivity|]. destruct k; [reflexivity|].
    change (String "0" (String.concat "" (repeat "0"%string (S k))) = string_of_list_ascii (repeat "0"%char (S (S k)))).
    rewrite IH. reflexivity. }
  rewrite Z. clear Z. induction k as [|k IH].
  - cbn [repeat string_of_list_ascii append]. rewrite NilEmpty.usu. cbn. now rewrite DecimalN.Unsigned.of_to.
  - change (option_map N.of_uint (uint_of_char "0" (NilEmpty.uint_of_string (string_of_list_ascii (repeat "0"%char k) ++ NilEmpty.string_of_uint (N.to_uint n)))) = Some n).
    destruct (NilEmpty.uint_of_string _) as [d|]; [|discriminate]. cbn in *. exact IH.
Qed.

Lemma name_inj i j : (0 <= i)%Z -> (0 <= j)%Z -> frame_name i = frame_name j -> i = j.
Proof.
  intros Hi Hj H. unfold frame_name in H.
  change (String "f" (String "i" (String "g" (String "_" (pad3 i ++ ".png")))) =
          String "f" (String "i" (String "g" (String "_" (pad3 j ++ ".png"))))) in H.
  injection H as H. apply app_inv_tail_str in H. unfold pad3 in H.
  destruct (Z.ltb_spec i 0); [lia|]. destruct (Z.ltb_spec j 0); [lia|].
  cbn [append] in H.
  apply (f_equal (fun s => option_map N.of_uint (NilEmpty.uint_of_string s))) in H. rewrite !read_zeros in H.
  injection H as H. lia.
Qed.

Section Files.
  Context {A : Type}.

  Lemma write_names name (x : A) files : map fst (write name x files) =
    if in_dec string_dec name (map fst files) then map fst files else map fst files ++ [name].
  Proof.
    induction files as [|[n y] files IH]; cbn [write map fst].
    - destruct (in_dec _ _ _) as [[]|]. reflexivity.
    - destruct (String.eqb_spec n name) as [->|N].
      + cbn [map fst]. destruct (in_dec string_dec name (name :: map fst files)) as [|H]; [reflexivity|].
        exfalso. apply H. now left.
      + cbn [map fst]. rewrite IH.
        destruct (in_dec string_dec name (map fst files)) as [H|H], (in_dec string_dec name (n :: map fst files)) as [G|G]; auto.
        * exfalso. apply G. now right.
        * destruct G as [G|G]; contradiction.
  Qed.

  Lemma lookup_write name n (x : A) files :
    lookup n (write name x files) = if String.eqb n name then Ok x else lookup n files.
  Proof.
    induction files as [|[m y] files IH]; cbn.
    - destruct (String.eqb_spec name n), (String.eqb_spec n name); congruence.
    - destruct (String.eqb_spec m name) as [->|N]; cbn.
      + destruct (String.eqb_spec name n), (String.eqb_spec n name); congruence.
      + rewrite IH. destruct (String.eqb_spec m n) as [->|]; [|reflexivity].
        destruct (String.eqb_spec n name); congruence.
  Qed.

  (** The directory after the figures [incs] were saved. *)
  Lemma saved (draw : Z -> res A) incs : forall files0 files,
    foldM (fun fs i => s <- draw i ;; Ok (write (frame_name i) s fs)) incs files0 = Ok files ->
    NoDup (map fst files0) ->
    (forall i j, In i incs -> In j incs -> frame_name i = frame_name j -> i = j) ->
    NoDup (map fst files) /\
    (forall n, In n (map fst files) <-> In n (map fst files0) \/ exists i, In i incs /\ n = frame_name i) /\
    (forall n, lookup n files = match find (fun i => String.eqb n (frame_name i)) incs with
                                | Some i => draw i | None => lookup n files0 end) /\
    (forall i, In i incs -> exists s, draw i = Ok s).
  Proof.
    induction incs as [|i incs IH]; intros files0 files H Hnd Hinj; cbn [foldM] in H.
    - injection H as <-. repeat split; auto; try contradiction. intros [H|(i & [] & _)]. exact H.
    - apply bind_ok in H. destruct H as (f1 & H1 & H). apply bind_ok in H1. destruct H1 as (s & Hs & H1). injection H1 as <-.
      apply IH in H.
      + destruct H as (N & M & L & D). split; [exact N|]. split; [|split].
        * intros n. rewrite M, write_names. destruct (in_dec string_dec (frame_name i) (map fst files0)) as [Hin|Hin].
          -- split.
             ++ intros [Hn|(j & Hj & ->)]; [auto|]. right. exists j. split; [now right|reflexivity].
             ++ intros [Hn|(j & [<-|Hj] & ->)]; eauto.
          -- rewrite in_app_iff. split.
             ++ intros [[Hn|[<-|[]]]|(j & Hj & ->)]; [auto|right; exists i; split; [now left|reflexivity]|].
                right. exists j. split; [now right|reflexivity].
             ++ intros [Hn|(j & [<-|Hj] & ->)]; [auto|left; right; now left|eauto].
        * intros n. rewrite L, lookup_write. cbn [find].
          destruct (String.eqb_spec n (frame_name i)) as [->|Nn]; [|reflexivity].
          destruct (find _ incs) as [j|] eqn:E; [|now symmetry].
          apply find_some in E. destruct E as [Hj E]. apply String.eqb_eq in E.
          rewrite (Hinj i j); auto; [now left|now right].
        * intros j [<-|Hj]; eauto.
      + rewrite write_names. destruct (in_dec _ _ _) as [Hin|Hin]; [exact Hnd|].
        apply NoDup_app_intro; [exact Hnd|repeat constructor; auto|]. intros x Hx [<-|[]]. contradiction.
      + intros a b Ha Hb. apply Hinj; now right.
  Qed.
End Files.

Lemma foldM_lookup {A} (files : list (string * A)) names : forall acc frames,
  foldM (fun acc n => x <- lookup n files ;; Ok (acc ++ [x])) names acc = Ok frames <->
  exists xs, frames = acc ++ xs /\ Forall2 (fun n x => lookup n files = Ok x) names xs.
Proof.
  induction names as [|n names IH]; intros acc frames; cbn [foldM].
  - split; [intros H; injection H as <-; exists []; now rewrite app_nil_r|].
    intros (xs & -> & H). inversion H. now rewrite app_nil_r.
  - split.
    + intros H. apply bind_ok in H. destruct H as (a1 & H1 & H). apply bind_ok in H1. destruct H1 as (x & Hx & H1).
      injection H1 as <-. apply IH in H. destruct H as (xs & -> & HF). exists (x :: xs). rewrite <- app_assoc. auto.
    + intros (xs & -> & HF). inversion HF as [|? x ? xs' H1 H2]; subst. rewrite H1. cbn [bind].
      apply IH. exists xs'. rewrite <- app_assoc. auto.
Qed.

Section Movie.
  Context {F : Type} `{NF : Num F}.

  Definition movie_incs (nR : nat) (incs : option (list Z)) : list Z :=
    match incs with Some l => l | None => map Z.of_nat (seq 1 (nR - 1)) end.

  (** The frames in the order of the file names. *)
  Lemma movie_names listdir (draw : Z -> res (scene F)) nR incs frames :
    lists_all listdir -> (forall i, In i (movie_incs nR incs) -> (0 <= i)%Z) ->
    p_movie listdir draw nR incs = Ok frames ->
    exists is, StronglySorted (fun i j => slt (frame_name i) (frame_name j)) is /\
      (forall i, In i is <-> In i (movie_incs nR incs)) /\ Forall2 (fun i s => draw i = Ok s) is frames.
  Proof.
    intros HL Hpos H. unfold p_movie in H. fold (movie_incs nR incs) in H.
    apply bind_ok in H. destruct H as (files & Hf & H).
    apply saved in Hf; [|constructor|intros i j Hi Hj; apply name_inj; auto].
    destruct Hf as (Hnd & Hin & Hlk & _). unfold png_to_gif in H. apply foldM_lookup in H. destruct H as (xs & E & HF).
    change (frames = xs) in E. subst xs.
    set (names := sorted (listdir (map fst files))) in *.
    assert (Hp : Permutation names (map fst files)).
    { unfold names. rewrite sorted_perm. apply HL. }
    assert (Hs : StronglySorted slt names).
    { apply sorted_sorted. eapply Permutation_NoDup; [apply Permutation_sym, HL|exact Hnd]. }
    assert (HN : forall n, In n names <-> exists i, In i (movie_incs nR incs) /\ n = frame_name i).
    { intros n. transitivity (In n (map fst files)).
      - split; apply Permutation_in; [exact Hp|now apply Permutation_sym].
      - rewrite Hin. cbn. split; [intros [[]|H]; exact H|auto]. }
    assert (G : forall names frames, StronglySorted slt names ->
      (forall n, In n names -> exists i, In i (movie_incs nR incs) /\ n = frame_name i) ->
      Forall2 (fun n x => lookup n files = Ok x) names frames ->
      exists is, map frame_name is = names /\ (forall i, In i is -> In i (movie_incs nR incs)) /\
        StronglySorted (fun i j => slt (frame_name i) (frame_name j)) is /\ Forall2 (fun i s => draw i = Ok s) is frames).
    { clear - Hlk Hpos. induction names as [|n names IH]; intros frames Hs Hn HF; inversion HF as [|? x ? xs H1 H2]; subst.
      - exists []. repeat split; auto; try constructor. contradiction.
      - inversion Hs as [|? ? Hs' Hf]; subst.
        destruct (IH xs Hs' (fun m Hm => Hn m (or_intror Hm)) H2) as (is & E & I1 & I2 & I3).
        destruct (Hn n (or_introl eq_refl)) as (i & Hi & ->). exists (i :: is). cbn [map]. rewrite E.
        split; [reflexivity|]. split; [intros k [<-|Hk]; auto|]. split.
        + constructor; [exact I2|]. rewrite Forall_forall in *. intros k Hk. apply Hf. rewrite <- E. now apply in_map.
        + constructor; [|exact I3]. rewrite Hlk in H1.
          destruct (find _ _) as [k|] eqn:Ef.
          * apply find_some in Ef. destruct Ef as [Hk Ef]. apply String.eqb_eq in Ef.
            rewrite (name_inj i k) by auto. exact H1.
          * discriminate. }
    destruct (G names frames Hs (fun n Hn => proj1 (HN n) Hn) HF) as (is & E & I1 & I2 & I3).
    exists is. split; [exact I2|]. split; [|exact I3]. intros i. split; [apply I1|].
    intros Hi. assert (Hni : In (frame_name i) names) by (apply HN; eauto).
    rewrite <- E in Hni. apply in_map_iff in Hni. destruct Hni as (k & Ek & Hk).
    rewrite (name_inj i k); auto.
  Qed.

  Lemma movie_total listdir (draw : Z -> res (scene F)) nR incs :
    lists_all listdir -> (forall i, In i (movie_incs nR incs) -> (0 <= i)%Z) ->
    (forall i, In i (movie_incs nR incs) -> exists s, draw i = Ok s) ->
    exists frames, p_movie listdir draw nR incs = Ok frames.
  Proof.
    intros HL Hpos Hd. unfold p_movie. fold (movie_incs nR incs).
    destruct (foldM_total (fun fs i => s <- draw i ;; Ok (write (frame_name i) s fs)) (movie_incs nR incs) []) as (files & E).
    { intros i fs Hi. destruct (Hd i Hi) as (s & Es). rewrite Es. cbn. eauto. }
    rewrite E. cbn [bind]. apply saved in E; [|constructor|intros i j Hi Hj; apply name_inj; auto].
    destruct E as (Hnd & Hin & Hlk & _). unfold png_to_gif. apply foldM_total. intros n acc Hn.
    assert (Hn' : In n (map fst files)).
    { eapply Permutation_in; [apply HL|]. eapply Permutation_in; [apply sorted_perm|exact Hn]. }
    assert (L : forall files, In n (map fst files) -> exists x : scene F, lookup n files = Ok x).
    { clear. induction files as [|[m y] files IH]; cbn; [contradiction|]. intros [->|H].
      - rewrite String.eqb_refl. eauto.
      - destruct (String.eqb m n); eauto. }
    destruct (L _ Hn') as (x & Ex). rewrite Ex. cbn. eauto.
  Qed.

  Lemma movie_order listdir (draw : Z -> res (scene F)) nR incs frames :
    lists_all listdir -> (forall i, In i (movie_incs nR incs) -> (0 <= i < 1000)%Z) ->
    p_movie listdir draw nR incs = Ok frames ->
    exists is, StronglySorted Z.lt is /\
      (forall i, In i is <-> In i (movie_incs nR incs)) /\ Forall2 (fun i s => draw i = Ok s) is frames.
  Proof.
    intros HL Hr H. destruct (movie_names _ _ _ _ _ HL (fun i Hi => proj1 (Hr i Hi)) H) as (is & S & I & HF).
    exists is. split; [|auto]. assert (B : forall i, In i is -> (0 <= i < 1000)%Z) by (intros i Hi; apply Hr, I, Hi).
    clear - S B. induction S as [|i is S IH Hf]; constructor.
    - apply IH. intros k Hk. apply B. now right.
    - rewrite Forall_forall in *. intros k Hk. apply name_order; [apply B; now left|apply B; now right|]. now apply Hf.
  Qed.

  (** Increment 1000 is shown before increment 999. *)
  Lemma movie_swapped listdir (draw : Z -> res (scene F)) nR incs frames :
    lists_all listdir -> (forall i, In i (movie_incs nR incs) -> (0 <= i)%Z) ->
    In 999%Z (movie_incs nR incs) -> In 1000%Z (movie_incs nR incs) ->
    p_movie listdir draw nR incs = Ok frames ->
    exists a b s t, (a < b)%nat /\ draw 1000%Z = Ok s /\ nth_error frames a = Some s /\
      draw 999%Z = Ok t /\ nth_error frames b = Some t.
  Proof.
    intros HL Hr H9 H10 H. destruct (movie_names _ _ _ _ _ HL Hr H) as (is & S & I & HF).
    apply I in H9, H10. apply In_nth_error in H9, H10. destruct H9 as (b & Hb). destruct H10 as (a & Ha).
    assert (FN : forall k i, nth_error is k = Some i -> exists s, draw i = Ok s /\ nth_error frames k = Some s).
    { clear - HF. induction HF as [|i s is fr H HF IH]; intros [|k] j Hk; try discriminate; cbn in Hk.
      - injection Hk as <-. exists s. auto.
      - now apply IH. }
    destruct (FN _ _ Ha) as (s & Hs & Es). destruct (FN _ _ Hb) as (t & Ht & Et).
    exists a, b, s, t. split; [|auto].
    assert (O : forall is a b i j, StronglySorted (fun i j => slt (frame_name i) (frame_name j)) is ->
      nth_error is a = Some i -> nth_error is b = Some j -> slt (frame_name i) (frame_name j) -> a < b).
    { clear. induction is as [|k is IH]; intros a b i j S Ha Hb L; [destruct a; discriminate|].
      inversion S as [|? ? S' Hf]; subst. rewrite Forall_forall in Hf.
      destruct a as [|a], b as [|b]; cbn in Ha, Hb; try lia.
      - injection Ha as <-. injection Hb as <-. now apply slt_irrefl in L.
      - injection Hb as <-. apply nth_error_In in Ha. apply Hf in Ha.
        exfalso. eapply slt_irrefl. eapply slt_trans; eassumption.
      - specialize (IH a b i j S' Ha Hb L). lia. }
    eapply (O is a b 1000%Z 999%Z S Ha Hb). vm_compute. reflexivity.
  Qed.
End Movie.
