(** * The extended matrix depends continuously on the unknowns near a regular point *)
From Coq Require Import List ZArith Bool Arith Lia Reals Lra.
From Coquelicot Require Import Coquelicot.
Import ListNotations.
From Verif Require Import Num NumR Vec Handlers Material Analysis Truss Equil Solver ListFacts SpecMaterial SpecMech SpecMechR EquilFacts MaterialFacts
  MechFacts StiffFacts TangentFacts SpecForm FormFacts SpecNewton BallFacts JacFacts.
Local Open Scope R_scope.

(** ** Neighbourhoods of a vector *)
Definition near (n : nat) (xs : list R) (P : list R -> Prop) : Prop := exists d, 0 < d /\ forall z, within n d z xs -> P z.

#[export] Instance near_filter n xs : Filter (near n xs).
Proof.
  constructor.
  - exists 1. split; [lra|auto].
  - intros P Q (d1 & H1 & P1) (d2 & H2 & P2). exists (Rmin d1 d2). split; [apply Rmin_pos; assumption|].
    intros z [L Hz]. split; [apply P1|apply P2]; (split; [exact L|]); intros i Hi; specialize (Hz i Hi);
      pose proof (Rmin_l d1 d2); pose proof (Rmin_r d1 d2); lra.
  - intros P Q H (d & Hd & HP). exists d. split; [exact Hd|]. intros z Hz. apply H, HP, Hz.
Qed.

Section Near.
  Variables (n : nat) (xs : list R).
  Notation cont g := (filterlim (g : list R -> R) (near n xs) (locally ((g : list R -> R) xs))).

  Lemma near_length : near n xs (fun z => length z = n).
  Proof. exists 1. split; [lra|]. intros z [H _]. exact H. Qed.

  Lemma cont_const (a : R) : cont (fun _ => a).
  Proof. apply filterlim_const. Qed.
  Lemma cont_plus f g : cont f -> cont g -> cont (fun z => f z + g z).
  Proof. intros Hf Hg. eapply filterlim_comp_2; [exact Hf|exact Hg|]. apply (filterlim_plus (K:=R_AbsRing) (V:=R_NormedModule)). Qed.
  Lemma cont_mult f g : cont f -> cont g -> cont (fun z => f z * g z).
  Proof. intros Hf Hg. eapply filterlim_comp_2; [exact Hf|exact Hg|]. apply (filterlim_mult (K:=R_AbsRing)). Qed.
  Lemma cont_comp (h : R -> R) f : cont f -> continuous h (f xs) -> cont (fun z => h (f z)).
  Proof. intros Hf Hh. eapply filterlim_comp; [exact Hf|exact Hh]. Qed.
  Lemma cont_opp f : cont f -> cont (fun z => - f z).
  Proof. intros H. apply (cont_comp Ropp f H). apply (continuous_opp (K:=R_AbsRing) (V:=R_NormedModule) (fun x : R => x) (f xs)), continuous_id. Qed.
  Lemma cont_minus f g : cont f -> cont g -> cont (fun z => f z - g z).
  Proof. intros Hf Hg. apply (cont_plus f (fun z => - g z)); [exact Hf|apply cont_opp; exact Hg]. Qed.
  Lemma cont_inv f : cont f -> f xs <> 0 -> cont (fun z => / f z).
  Proof. intros H H0. apply (cont_comp Rinv f H). apply continuous_Rinv. exact H0. Qed.
  Lemma cont_div f g : cont f -> cont g -> g xs <> 0 -> cont (fun z => f z / g z).
  Proof. intros Hf Hg H0. apply (cont_mult f (fun z => / g z)); [exact Hf|apply cont_inv; assumption]. Qed.
  Lemma cont_sqrt f : cont f -> cont (fun z => sqrt (f z)).
  Proof. intros H. apply (cont_comp sqrt f H). apply continuous_sqrt. Qed.
  Lemma cont_rsum {A} (f : A -> list R -> R) l : (forall a, In a l -> cont (f a)) -> cont (fun z => rsum (map (fun a => f a z) l)).
  Proof.
    induction l as [|a l IH]; intros H; [apply cont_const|]. cbn [map rsum fold_right].
    apply (cont_plus (f a) (fun z => rsum (map (fun a => f a z) l))); [apply H; left; reflexivity|apply IH; intros; apply H; right; assumption].
  Qed.
  Lemma cont_ext f g : near n xs (fun z => f z = g z) -> f xs = g xs -> cont f -> cont g.
  Proof. intros H E Hf. rewrite <- E. eapply filterlim_ext_loc; [exact H|exact Hf]. Qed.
  Lemma cont_coord i : (i < n)%nat -> cont (fun z => nth i z 0).
  Proof.
    intros Hi P [d Hd]. exists (d / 2). split; [destruct d; cbn; lra|]. intros z [_ Hz]. apply Hd. specialize (Hz i Hi).
    change (Rabs (nth i z 0 - nth i xs 0) < d). destruct d as [d Hd0]. cbn in *. lra.
  Qed.
  Lemma cont_near f (P : R -> Prop) : cont f -> locally (f xs) P -> near n xs (fun z => P (f z)).
  Proof. intros Hf HP. exact (Hf P HP). Qed.
  Lemma cont_le f e : cont f -> 0 < e -> near n xs (fun z => Rabs (f z - f xs) <= e).
  Proof.
    intros Hf He. apply (cont_near f (fun y => Rabs (y - f xs) <= e) Hf). exists (mkposreal e He). intros y Hy.
    apply Rlt_le. exact Hy.
  Qed.
  Lemma near_all (P : nat -> list R -> Prop) m : (forall i, (i < m)%nat -> near n xs (P i)) -> near n xs (fun z => forall i, (i < m)%nat -> P i z).
  Proof.
    induction m as [|m IH]; intros H; [exists 1; split; [lra|]; intros; lia|].
    eapply filter_imp; [|apply filter_and; [apply IH; intros i Hi; apply H; lia|apply (H m); lia]].
    intros z [H1 H2] i Hi. destruct (Nat.eq_dec i m) as [->|]; [exact H2|apply H1; lia].
  Qed.
End Near.

(** ** Trusses *)
Lemma locally_neq (x a : R) : x <> a -> locally x (fun y => y <> a).
Proof.
  intros H. assert (Hp : 0 < Rabs (x - a)) by (apply Rabs_pos_lt; lra). exists (mkposreal _ Hp). intros y Hy ->.
  change (Rabs (a - x) < Rabs (x - a)) in Hy. rewrite Rabs_minus_sym in Hy. lra.
Qed.

Lemma smooth_open u mat row e : smooth_at u mat row e -> locally e (smooth_at u mat row).
Proof.
  destruct u; [intros _; exists (mkposreal 1 Rlt_0_1); intros; exact I|].
  intros Hs. destruct mat as [|E [|K [|Sy rest]]]; try (exfalso; exact Hs). destruct row as [[|y [|p r]]|]; try (exfalso; exact Hs).
  cbn [smooth_at] in Hs. destruct Hs as (H1 & H2 & H3 & H4).
  assert (L : locally e (fun e' => Rabs (E * (e' - p)) <> yield_before Sy y)).
  { assert (C : continuous (fun e' => Rabs (E * (e' - p))) e).
    { apply (continuous_comp (fun e' => E * (e' - p)) Rabs); [|apply continuous_Rabs].
      apply (continuous_mult (K:=R_AbsRing) (fun _ => E) (fun e' => e' - p)); [apply continuous_const|].
      apply (continuous_minus (K:=R_AbsRing) (V:=R_NormedModule) (fun e' => e') (fun _ => p)); [apply continuous_id|apply continuous_const]. }
    exact (C (fun t => t <> yield_before Sy y) (locally_neq _ _ H4)). }
  eapply filter_imp; [|exact L]. intros e' He'. cbn [smooth_at]. repeat split; assumption.
Qed.

Lemma tangent_continuous u mat row e de x : umat (F:=R) u e de mat row = Ok x -> smooth_at u mat row e -> continuous (tangent_at u mat row) e.
Proof.
  intros H Hs. destruct u; cbn [umat] in H.
  - unfold tangent_at. cbn [umat]. unfold umat_el. destruct (item mat 0); cbn [bind]; apply continuous_const.
  - destruct (umat_pl_shape _ _ _ _ _ H) as (E & K & Sy & rest & y & p & sr & -> & ->).
    cbn [smooth_at] in Hs. destruct Hs as (HE & HK & HY & Hne).
    assert (C : continuous (fun e' => Rabs (E * (e' - p)) - yield_before Sy y) e).
    { apply (continuous_minus (K:=R_AbsRing) (V:=R_NormedModule) (fun e' => Rabs (E * (e' - p))) (fun _ => yield_before Sy y)); [|apply continuous_const].
      apply (continuous_comp (fun e' => E * (e' - p)) Rabs); [|apply continuous_Rabs].
      apply (continuous_mult (K:=R_AbsRing) (fun _ => E) (fun e' => e' - p)); [apply continuous_const|].
      apply (continuous_minus (K:=R_AbsRing) (V:=R_NormedModule) (fun e' => e') (fun _ => p)); [apply continuous_id|apply continuous_const]. }
    set (f := fun e' => Rabs (E * (e' - p)) - yield_before Sy y) in *.
    assert (Ht : forall e', tangent_at UmatPl (E :: K :: Sy :: rest) (Some (y :: p :: sr)) e' = if Rle_dec (f e') 0 then E else E * K / (E + K)).
    { intros e'. unfold tangent_at. cbn [umat]. rewrite umat_pl_pad, umat_pl_eq. cbn zeta. fold (f e'). destruct (Rle_dec (f e') 0); reflexivity. }
    assert (Hf0 : f e <> 0) by (unfold f; lra).
    assert (L : locally e (fun e' => tangent_at UmatPl (E :: K :: Sy :: rest) (Some (y :: p :: sr)) e = tangent_at UmatPl (E :: K :: Sy :: rest) (Some (y :: p :: sr)) e')).
    { destruct (Rtotal_order (f e) 0) as [Hl|[Hl|Hl]]; [|contradiction|].
      - eapply filter_imp; [|apply (C (fun t => t < 0)); apply (open_lt 0); exact Hl]. intros e' He'. change (f e' < 0) in He'. rewrite !Ht. do 2 destruct (Rle_dec _ _); lra || reflexivity.
      - eapply filter_imp; [|apply (C (fun t => 0 < t)); apply (open_gt 0); exact Hl]. intros e' He'. change (0 < f e') in He'. rewrite !Ht. do 2 destruct (Rle_dec _ _); lra || reflexivity. }
    unfold continuous. eapply filterlim_ext_loc; [exact L|]. apply filterlim_const.
Qed.

Lemma stress_continuous u mat row e de x : umat (F:=R) u e de mat row = Ok x -> smooth_at u mat row e -> continuous (stress_at u mat row) e.
Proof.
  intros H Hs. destruct x as [[s t] st]. apply (ex_derive_continuous (K:=R_AbsRing) (V:=R_NormedModule)).
  exists t. exact (umat_derive _ _ _ _ _ _ _ _ H Hs).
Qed.

Section Truss.
  Variables (c : ctx R) (ms : list (member R)) (a0 : analysis R) (j : Z) (xs : list R).
  Hypotheses (Hok : truss_ok c ms) (Hsz : sizes_ok c ms a0) (Hpr : props_ok c ms a0) (Hxs : length xs = S (c_ndof1 c)).
  Notation n := (S (c_ndof1 c)).
  Notation cont g := (filterlim (g : list R -> R) (near n xs) (locally ((g : list R -> R) xs))).
  Notation U := (upd a0).

  Lemma upd_ok V : length V = n -> scatter (a_U a0) (a_DOF1 a0) (removelast V) = Ok (U V).
  Proof.
    intros HV. pose proof Hsz as (HU & _ & _ & _ & _ & _ & _ & _ & HD & HD' & Hn & _). destruct (snoc_split V _ HV) as [_ HuL].
    destruct (scatter_total (a_U a0) (a_DOF1 a0) (removelast V)) as [x Hx]; [intros; rewrite HU; auto|lia|].
    unfold upd. rewrite Hx. reflexivity.
  Qed.

  Lemma upd_length V : length V = n -> length (U V) = length (c_labels c).
  Proof. intros HV. pose proof (upd_ok V HV) as H. apply scatter_length in H. pose proof Hsz as (HU & _). congruence. Qed.

  Lemma cont_flat p : cont (fun z => nth p (vflat (U z)) 0).
  Proof.
    pose proof Hsz as (HU & _ & _ & _ & _ & _ & _ & _ & HD & HD' & Hn & _).
    destruct (in_dec Nat.eq_dec p (a_DOF1 a0)) as [Hin|Hin].
    - apply In_nth_error in Hin. destruct Hin as [i Hi].
      assert (Hil : (i < c_ndof1 c)%nat) by (rewrite Hn; apply nth_error_Some; congruence).
      assert (G : forall z, length z = n -> nth i z 0 = nth p (vflat (U z)) 0).
      { intros z Hz. destruct (snoc_split z _ Hz) as [Ez HuL]. pose proof (upd_ok z Hz) as Hs.
        assert (HlD : length (removelast z) = length (a_DOF1 a0)) by lia. destruct (scatter_ok _ _ _ _ HD HlD Hs) as (_ & _ & G). specialize (G _ _ Hi).
        rewrite (nth_nth_error (removelast z) i 0) in G by lia. apply nth_error_nth with (d := 0) in G. rewrite G.
        rewrite Ez at 1. apply app_nth1. lia. }
      eapply (cont_ext n xs (fun z => nth i z 0)); [|apply G; exact Hxs|apply cont_coord; lia].
      eapply filter_imp; [|apply near_length]. exact G.
    - assert (G : forall z, length z = n -> nth p (vflat (a_U a0)) 0 = nth p (vflat (U z)) 0).
      { intros z Hz. destruct (snoc_split z _ Hz) as [Ez HuL]. pose proof (upd_ok z Hz) as Hs.
        assert (HlD : length (removelast z) = length (a_DOF1 a0)) by lia. destruct (scatter_ok _ _ _ _ HD HlD Hs) as (_ & G & _). specialize (G _ Hin).
        rewrite <- !nth_default_eq. unfold nth_default. rewrite G. reflexivity. }
      eapply (cont_ext n xs (fun _ => nth p (vflat (a_U a0)) 0)); [|apply G; exact Hxs|apply cont_const].
      eapply filter_imp; [|apply near_length]. exact G.
  Qed.

  Lemma row_flat V l d : length V = n -> In l (c_labels c) -> (d < 3)%nat ->
    vget (row_of (c_labels c) (U V) vzero l) d = nth (3 * idx l (c_labels c) + d) (vflat (U V)) 0.
  Proof.
    intros HV Hl Hd. pose proof Hok as (Hnd & _). pose proof (upd_length V HV) as HL.
    rewrite row_of_nth by auto. assert (Hi : (idx l (c_labels c) < length (U V))%nat) by (rewrite HL; apply idx_lt; assumption).
    destruct (div3 (idx l (c_labels c)) d Hd) as [D1 D2].
    assert (E : nth_error (vflat (U V)) (3 * idx l (c_labels c) + d) = Some (vget (nth (idx l (c_labels c)) (U V) vzero) d)).
    { rewrite nth_error_vflat, D1, D2, (nth_nth_error (U V) _ vzero Hi). reflexivity. }
    apply nth_error_nth with (d := 0) in E. symmetry. exact E.
  Qed.

  Lemma cont_row l d : In l (c_labels c) -> (d < 3)%nat -> cont (fun z => vget (row_of (c_labels c) (U z) vzero l) d).
  Proof.
    intros Hl Hd. eapply (cont_ext n xs (fun z => nth (3 * idx l (c_labels c) + d) (vflat (U z)) 0)); [| |apply cont_flat].
    - eapply filter_imp; [|apply near_length]. intros z Hz. symmetry. apply row_flat; assumption.
    - symmetry. apply row_flat; assumption.
  Qed.

  Variable m : member R.
  Hypothesis Hm : In m ms.

  Lemma cont_axis d : (d < 3)%nat -> cont (fun z => vget (axis c (U z) m) d).
  Proof.
    intros Hd. pose proof Hok as (_ & _ & _ & _ & Hnodes). destruct (Hnodes m Hm) as (Ha & Hb & _).
    apply (cont_ext n xs (fun z => (vget (row_of (c_labels c) (c_coords c) vzero (mb_b m)) d + vget (row_of (c_labels c) (U z) vzero (mb_b m)) d)
      - (vget (row_of (c_labels c) (c_coords c) vzero (mb_a m)) d + vget (row_of (c_labels c) (U z) vzero (mb_a m)) d))).
    - apply filter_forall. intros z. unfold axis, place. destruct d as [|[|[|]]]; [reflexivity..|lia].
    - unfold axis, place. destruct d as [|[|[|]]]; [reflexivity..|lia].
    - apply cont_minus; apply cont_plus; try apply cont_const; apply cont_row; assumption.
  Qed.

  Lemma cont_len : cont (fun z => len (axis c (U z) m)).
  Proof.
    pose proof (cont_axis 0 ltac:(lia)) as X. pose proof (cont_axis 1 ltac:(lia)) as Y. pose proof (cont_axis 2 ltac:(lia)) as Z.
    cbn [vget] in X, Y, Z. unfold len. apply cont_sqrt. repeat apply cont_plus; apply cont_mult; assumption.
  Qed.

  Variable k : nat.
  Hypothesis Hk : nth_error ms k = Some m.
  Hypothesis Hreg : regular c ms a0 (U xs).

  Lemma cont_stretch : cont (fun z => stretch_of c (U z) m - 1).
  Proof.
    apply cont_minus; [|apply cont_const]. unfold stretch_of. apply cont_div; [apply cont_len|apply cont_const|]. apply (Hreg k m Hk).
  Qed.

  Lemma near_regular : near n xs (fun z => len (axis c (U z) m) <> 0 /\ smooth_at (mb_law m) (mb_mat m) (state_row c a0 k) (stretch_of c (U z) m - 1)).
  Proof.
    destruct (Hreg k m Hk) as (H1 & H2 & H3). apply filter_and.
    - apply (cont_near n xs (fun z => len (axis c (U z) m)) (fun y => y <> 0) cont_len). apply locally_neq. exact H2.
    - apply (cont_near n xs (fun z => stretch_of c (U z) m - 1) (smooth_at (mb_law m) (mb_mat m) (state_row c a0 k)) cont_stretch).
      apply smooth_open. exact H3.
  Qed.

  Lemma umat_runs e : exists x, umat (mb_law m) e 0 (mb_mat m) (state_row c a0 k) = Ok x.
  Proof.
    destruct (Hpr k m Hk) as [_ HL]. destruct (mb_law m); cbn [umat].
    - unfold umat_el, item. destruct (mb_mat m); [contradiction|]. cbn. eauto.
    - destruct HL as (L3 & y & p & r & ->). destruct (mb_mat m) as [|E [|K [|Sy rest]]]; cbn in L3; try lia.
      rewrite umat_pl_pad. destruct (umat_pl_total E K Sy e 0 y p) as (s & t & y' & p' & ->). eauto.
  Qed.

  Lemma cont_force : cont (fun z => force_of c a0 (U z) k m).
  Proof.
    unfold force_of. apply cont_mult; [apply cont_const|]. destruct (umat_runs (stretch_of c (U xs) m - 1)) as [x Hx].
    apply (cont_comp n xs (stress_at (mb_law m) (mb_mat m) (state_row c a0 k)) (fun z => stretch_of c (U z) m - 1)); [apply cont_stretch|].
    eapply stress_continuous; [exact Hx|]. apply (Hreg k m Hk).
  Qed.
  Lemma cont_axial : cont (fun z => axial_of c a0 (U z) k m).
  Proof.
    unfold axial_of. apply cont_mult; [apply cont_const|]. destruct (umat_runs (stretch_of c (U xs) m - 1)) as [x Hx].
    apply (cont_comp n xs (tangent_at (mb_law m) (mb_mat m) (state_row c a0 k)) (fun z => stretch_of c (U z) m - 1)); [apply cont_stretch|].
    eapply tangent_continuous; [exact Hx|]. apply (Hreg k m Hk).
  Qed.

  Lemma cont_dir d : (d < 3)%nat -> cont (fun z => vget (direction c (U z) m) d).
  Proof.
    intros Hd. apply (cont_ext n xs (fun z => / len (axis c (U z) m) * vget (axis c (U z) m) d)).
    - apply filter_forall. intros z. unfold direction. symmetry. apply vget_vscale.
    - unfold direction. symmetry. apply vget_vscale.
    - apply cont_mult; [|apply cont_axis; exact Hd]. apply cont_inv; [apply cont_len|]. apply (Hreg k m Hk).
  Qed.

  Lemma mem_K_ent V p q : (p < 3)%nat -> (q < 3)%nat ->
    vget (vget (mem_K c a0 (U V) (k, m)) p) q =
    axial_of c a0 (U V) k m / len (axis0 c m) * (vget (direction c (U V) m) p * vget (direction c (U V) m) q)
    + force_of c a0 (U V) k m / len (axis c (U V) m) * ((if Nat.eqb p q then 1 else 0) - vget (direction c (U V) m) p * vget (direction c (U V) m) q).
  Proof.
    intros Hp Hq. unfold mem_K. cbn [fst snd]. generalize (direction c (U V) m). generalize (axial_of c a0 (U V) k m / len (axis0 c m)).
    generalize (force_of c a0 (U V) k m / len (axis c (U V) m)). intros f a [x y z].
    destruct p as [|[|[|]]], q as [|[|[|]]]; try lia; unfold madd, mscale, msub, meye, vouter, vscale, vadd, vsub, vmap, vmap2;
      cbn [vget Vec.vx Vec.vy Vec.vz Nat.eqb]; numR; ring.
  Qed.

  Lemma cont_mem p q : (p < 3)%nat -> (q < 3)%nat -> cont (fun z => vget (vget (mem_K c a0 (U z) (k, m)) p) q).
  Proof.
    intros Hp Hq. eapply cont_ext; [apply filter_forall; intros z; symmetry; apply mem_K_ent; assumption|symmetry; apply mem_K_ent; assumption|].
    assert (D : cont (fun z => vget (direction c (U z) m) p * vget (direction c (U z) m) q)) by (apply cont_mult; apply cont_dir; assumption).
    destruct (Hreg k m Hk) as (H1 & H2 & _).
    apply cont_plus; apply cont_mult; auto.
    - apply cont_div; [apply cont_axial|apply cont_const|exact H1].
    - apply cont_div; [apply cont_force|apply cont_len|exact H2].
    - apply cont_minus; [apply cont_const|exact D].
  Qed.
End Truss.

Section Whole.
  Variables (c : ctx R) (ms : list (member R)) (a0 : analysis R) (j : Z) (xs : list R).
  Hypotheses (Hok : truss_ok c ms) (Hsz : sizes_ok c ms a0) (Hpr : props_ok c ms a0) (Hxs : length xs = S (c_ndof1 c)).
  Notation n := (S (c_ndof1 c)).
  Notation U := (upd a0).
  Hypothesis Hreg : regular c ms a0 (U xs).

  Lemma regular_near : near n xs (fun z => regular c ms a0 (U z)).
  Proof.
    assert (G : near n xs (fun z => forall k, (k < length ms)%nat -> forall m, nth_error ms k = Some m ->
      len (axis0 c m) <> 0 /\ len (axis c (U z) m) <> 0 /\ smooth_at (mb_law m) (mb_mat m) (state_row c a0 k) (stretch_of c (U z) m - 1))).
    { apply (near_all n xs (fun k z => forall m, nth_error ms k = Some m ->
        len (axis0 c m) <> 0 /\ len (axis c (U z) m) <> 0 /\ smooth_at (mb_law m) (mb_mat m) (state_row c a0 k) (stretch_of c (U z) m - 1))).
      intros k Hk. destruct (nth_error ms k) as [m|] eqn:E; [|apply nth_error_None in E; lia].
      eapply filter_imp; [|apply (near_regular c ms a0 xs Hok Hsz Hxs m (nth_error_In _ _ E) k E Hreg)].
      intros z Hz m' Em. injection Em as <-. split; [apply (Hreg k m E)|exact Hz]. }
    eapply filter_imp; [|exact G]. intros z Hz k m Hk. apply Hz; [apply nth_error_Some; congruence|exact Hk].
  Qed.

  Lemma J_entry_continuous i k : (i < n)%nat -> (k < n)%nat ->
    filterlim (fun z => J_entry c ms a0 j (U z) i k) (near n xs) (locally (J_entry c ms a0 j (U xs) i k)).
  Proof.
    intros Hi Hk. unfold J_entry. destruct (Nat.eqb i _); [apply (cont_const n xs)|]. destruct (Nat.eqb k _); [apply (cont_const n xs)|].
    unfold K_entry.
    apply (cont_rsum n xs (fun km z => sg (snd km) (lab c (nth i (a_DOF1 a0) 0%nat)) * (sg (snd km) (lab c (nth k (a_DOF1 a0) 0%nat)) *
      vget (vget (mem_K c a0 (U z) km) (nth i (a_DOF1 a0) 0%nat mod 3)) (nth k (a_DOF1 a0) 0%nat mod 3)))).
    intros [kk m] Hin. cbn [fst snd].
    assert (Em : nth_error ms kk = Some m).
    { apply In_nth_error in Hin. destruct Hin as [k' Hk']. rewrite nth_error_combine, nth_error_seq in Hk'.
      destruct (k' <? length ms)%nat; [|discriminate]. destruct (nth_error ms k') eqn:E; [|discriminate]. injection Hk' as <- <-. exact E. }
    apply (cont_mult n xs (fun _ => _)); [apply cont_const|]. apply (cont_mult n xs (fun _ => _)); [apply cont_const|].
    apply (cont_mem c ms a0 xs Hok Hsz Hpr Hxs m (nth_error_In _ _ Em) kk Em Hreg); apply Nat.mod_upper_bound; lia.
  Qed.
End Whole.
