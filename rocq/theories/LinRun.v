(** * Small loads: the run follows linear truss theory *)
From Coq Require Import List ZArith Bool Arith Lia Reals Lra Permutation.
Import ListNotations.
From Verif Require Import Num NumR TolFacts Vec Handlers Material Analysis Truss Equil Solver Run ListFacts SpecMaterial SpecMech SpecMechR SpecBuild EquilFacts
  MechFacts StiffFacts TangentFacts SpecState FrameFacts SpecSolver SpecRun RunFacts ReachFacts SessionFacts PropMech RunProps BuildFacts BuildProps
  SpecBar PropBar SpecOne OneFacts OneRun SpecNewton BallFacts JacFacts NearFacts NewtonFacts EvalFacts SmallFacts SpecSmall SpecForm FormFacts PropForm SmallRun SpecLin LinFacts.
Local Open Scope R_scope.

Lemma map_snd_index {A B} (f : A -> B) (l : list A) s : map (fun km => f (snd km)) (combine (seq s (length l)) l) = map f l.
Proof. revert s. induction l as [|a l IH]; intros s; [reflexivity|]. cbn [length seq combine map snd]. f_equal. apply IH. Qed.

(** ** The matrix at rest is that of linear theory *)
Section RestRows.
  Variables (c : ctx R) (ms : list (member R)) (an : analysis R) (j : Z).
  Notation n := (S (c_ndof1 c)).
  Hypotheses (Hok : truss_ok c ms) (Hsz : sizes_ok c ms an) (Hf : length (a_f0red an) = c_ndof1 c)
    (Hel : forall b, In b ms -> elastic_at_first b) (Hun : unyielded c ms an) (Hax : forall b, In b ms -> len (axis0 c b) <> 0) (Hj : (1 <= Z.abs j <= Z.of_nat n)%Z).

  Definition unit0 (b : member R) : v3 R := vscale (/ len (axis0 c b)) (axis0 c b).

  Lemma rest_mem_K m k b (w : v3 R) d : nth_error ms k = Some b ->
    vget (mvec (mem_K c an (zeros3 m) (k, b)) w) d = EA b / len (axis0 c b) * vdot (unit0 b) w * vget (unit0 b) d.
  Proof.
    intros Hk. pose proof (nth_error_In _ _ Hk) as Hb. destruct (hooke_rest b _ (Hel b Hb) (Hun k b Hk) 0) as [st Est]. pose proof (Hax b Hb) as Ha.
    assert (E0 : stretch_of c (zeros3 m) b - 1 = 0) by (unfold stretch_of; rewrite axis_rest; field; exact Ha).
    assert (E1 : axial_of c an (zeros3 m) k b = EA b).
    { unfold axial_of, tangent_at, EA. rewrite E0, Est. ring. }
    assert (E2 : force_of c an (zeros3 m) k b = 0).
    { unfold force_of, stress_at. rewrite E0, Est. ring. }
    assert (E3 : direction c (zeros3 m) b = unit0 b) by (unfold direction, unit0; now rewrite axis_rest).
    unfold mem_K. cbn [fst snd]. cbv zeta. rewrite E1, E2, E3. generalize (unit0 b). intros [e1 e2 e3]. destruct w as [w1 w2 w3]. generalize (EA b / len (axis0 c b)). intros s.
    unfold Rdiv. rewrite Rmult_0_l. destruct d as [|[|d]]; unfold mvec, madd, mscale, msub, meye, vouter, vscale, vadd, vsub, vmap, vmap2, vdot; cbn [vget Vec.vx Vec.vy Vec.vz]; numR; ring.
  Qed.

  Lemma rest_rows V a2 Km m v x i : length V = n -> dfdx (stiffness c) j V an = Ok (a2, Km) -> a_U a2 = zeros3 m ->
    length x = c_ndof1 c -> spreads c an x v -> (i < c_ndof1 c)%nat -> let p := nth i (a_DOF1 an) 0%nat in
    row_times Km (x ++ [1]) i =
      rsum (map (fun b => sg b (lab c p) * (EA b / len (axis0 c b) * vdot (unit0 b) (delta v b) * vget (unit0 b) (p mod 3))) ms) - nth i (a_f0red an) 0.
  Proof.
    intros HV HK HU Lx Hv Hi p. destruct (dfdx_entry c ms j V an a2 Km Hok Hsz HV Hf ltac:(lia) HK) as [_ HE].
    rewrite (row_times_len _ _ _ n) by (rewrite app_length, Lx; cbn; lia). rewrite rsum_split.
    rewrite (app_nth2 x) by lia. rewrite Lx, Nat.sub_diag. cbn [nth]. rewrite HE by lia.
    replace (J_entry c ms an j (a_U a2) i (c_ndof1 c)) with (- nth i (a_f0red an) 0).
    2:{ unfold J_entry. rewrite Nat.eqb_refl. destruct (Nat.eqb_spec i (c_ndof1 c)); [lia|reflexivity]. }
    rewrite (rsum_ext _ (fun k => K_entry c ms an (zeros3 m) p (nth k (a_DOF1 an) 0%nat) * nth k x 0)).
    2:{ intros k Hk. apply in_seq in Hk. rewrite app_nth1 by lia. rewrite HE by lia. unfold J_entry.
        destruct (Nat.eqb_spec i (c_ndof1 c)); [lia|]. destruct (Nat.eqb_spec k (c_ndof1 c)); [lia|]. rewrite HU. reflexivity. }
    rewrite (K_row c ms an Hok Hsz (zeros3 m) v x p Lx Hv).
    set (F := fun b => sg b (lab c p) * (EA b / len (axis0 c b) * vdot (unit0 b) (delta v b) * vget (unit0 b) (p mod 3))).
    rewrite (rsum_ext _ (fun km => F (snd km))).
    2:{ intros [k b] Hkb. apply member_In in Hkb. cbn [snd]. unfold F. f_equal. apply rest_mem_K. exact Hkb. }
    rewrite map_snd_index. ring.
  Qed.
End RestRows.

(** ** The elongation of a bar to first order *)
Lemma stretch_first (a w : v3 R) B : 0 < len a -> 0 <= B -> 8 * B <= len a -> (forall d, Rabs (vget w d) <= 2 * B) ->
  let t := vdot a w / len a in 0 <= len (vadd a w) - len a - t <= 24 * B ^ 2 / len a.
Proof.
  intros Ha HB H8 Hw t. set (L := len a) in *. set (s := len (vadd a w)).
  assert (Hs0 : 0 <= s) by apply sqrt_pos.
  assert (Hww : vdot w w <= 12 * B ^ 2).
  { assert (Q : forall y, Rabs y <= 2 * B -> y * y <= 4 * B ^ 2).
    { intros y Hy. pose proof (Rabs_pos y). replace (y * y) with (Rabs y * Rabs y) by (unfold Rabs; destruct (Rcase_abs y); ring).
      replace (4 * B ^ 2) with ((2 * B) * (2 * B)) by ring. apply Rmult_le_compat; assumption. }
    pose proof (Q _ (Hw 0%nat)). pose proof (Q _ (Hw 1%nat)). pose proof (Q _ (Hw 2%nat)). destruct w as [w1 w2 w3]. cbn [vget Vec.vx Vec.vy Vec.vz] in *.
    change (w1 * w1 + w2 * w2 + w3 * w3 <= 12 * B ^ 2). lra. }
  assert (Hs2 : s * s = L * L + 2 * L * t + vdot w w).
  { unfold s, L, t. rewrite !len_sq. fold L. replace (2 * L * (vdot a w / L)) with (2 * vdot a w) by (field; lra).
    destruct a as [a1 a2 a3], w as [w1 w2 w3]. unfold vadd, vdot, vmap2. cbn. numR. ring. }
  assert (Hc : t * t <= vdot w w).
  { pose proof (cauchy (vscale (/ L) a) w) as G.
    assert (E1 : vdot (vscale (/ L) a) (vscale (/ L) a) = 1).
    { replace (vdot (vscale (/ L) a) (vscale (/ L) a)) with (/ L * / L * vdot a a) by (destruct a; unfold vdot, vscale, vmap; cbn; numR; ring). rewrite <- len_sq. fold L. field. lra. }
    assert (E2 : vdot (vscale (/ L) a) w = t) by (unfold t; destruct a, w; unfold vdot, vscale, vmap; cbn; numR; field; lra).
    rewrite E1, E2 in G. specialize (G ltac:(lra)). lra. }
  assert (HL2 : 64 * B ^ 2 <= L * L) by nra.
  assert (Ht : - (L / 2) <= t).
  { destruct (Rle_dec (- (L / 2)) t) as [|Hn]; [assumption|]. exfalso. assert (t < - (L / 2)) by lra. nra. }
  assert (Hp : (s - L - t) * (s + L + t) = vdot w w - t * t) by nra.
  assert (Hd : L / 2 <= s + L + t) by lra.
  assert (H0 : 0 <= s - L - t). { destruct (Rle_dec 0 (s - L - t)) as [|Hn]; [assumption|]. exfalso. nra. }
  split; [exact H0|]. apply (Rmult_le_reg_r (L / 2)); [lra|]. replace (24 * B ^ 2 / L * (L / 2)) with (12 * B ^ 2) by (field; lra).
  apply Rle_trans with ((s - L - t) * (s + L + t)); [apply Rmult_le_compat_l; assumption|]. rewrite Hp. nra.
Qed.

(** ** The tables of a built model *)
Lemma nth_concat3 (rows : list (list R)) i d : (forall r, In r rows -> length r = 3%nat) -> (d < 3)%nat -> (i < length rows)%nat ->
  nth (3 * i + d) (concat rows) 0 = nth d (nth i rows []) 0.
Proof.
  revert i. induction rows as [|r rows IH]; intros i H Hd Hi; [cbn in Hi; lia|]. cbn [concat]. pose proof (H r (or_introl eq_refl)) as Hr. destruct i as [|i].
  - rewrite app_nth1 by lia. reflexivity.
  - rewrite app_nth2 by lia. rewrite Hr. replace (3 * S i + d - 3)%nat with (3 * i + d)%nat by lia. cbn [nth]. apply IH; [intros; apply H; now right|exact Hd|cbn in Hi; lia].
Qed.
Lemma nth_firstn (r : list R) k d : (d < k)%nat -> nth d (firstn k r) 0 = nth d r 0.
Proof. revert r d. induction k as [|k IH]; intros [|a r] [|d] H; cbn; try lia; try reflexivity; try (destruct d; reflexivity). apply IH. lia. Qed.
Lemma row_for_perm {A} (rows rows' : list (Z * A)) d l : NoDup (map fst rows) -> Permutation rows' rows -> In l (map fst rows) -> row_for rows' d l = row_for rows d l.
Proof.
  intros Hn Hp Hl. apply in_map_iff in Hl. destruct Hl as ([l' v] & E & Hi). cbn in E. subst l'.
  rewrite (row_for_In rows d l v Hn Hi). apply row_for_In; [|eapply Permutation_in; [apply Permutation_sym, Hp|exact Hi]].
  eapply Permutation_NoDup; [apply Permutation_map, Permutation_sym, Hp|exact Hn].
Qed.
Lemma row_of_for {A} (ns : list (Z * A)) d l : row_of (map fst ns) (map snd ns) d l = row_for ns d l.
Proof. induction ns as [|[a v] ns IH]; cbn [map fst snd row_of row_for]; [reflexivity|]. destruct (Z.eqb l a); [reflexivity|apply IH]. Qed.

Section Tables.
  Variables (argsortZ : list Z -> list nat).
  Variables (m : model R) (ns : list (Z * v3 R)) (ms : list (member R)) (bs : list (Z * list Z)) (fs : list (Z * list R)).
  Variables (m1 : model R) (u1 : built R) (nh : nodeH R) (fh : forceH R).
  Hypotheses (HA : argsort_ok argsortZ) (Hd : described m ns ms bs fs) (Hb : build argsortZ m = Ok m1)
    (Eu : m_built m1 = Some u1) (En : m_nodes m1 = Some nh) (Ef : m_forces m1 = Some fh) (Hwd : forall r, In r (e_rows fh) -> (3 <= length r)%nat).

  Lemma table_rows :
    (forall l, In l (n_labels nh) <-> In l (map fst ns)) /\ NoDup (n_labels nh) /\
    (forall l, In l (n_labels nh) -> row_of (n_labels nh) (n_coords nh) vzero l = row_for ns vzero l) /\
    (forall i l d, nth_error (n_labels nh) i = Some l -> (d < 3)%nat -> (In (3 * i + d)%nat (a_DOF1 (u_an u1)) <-> nth d (row_for bs [1; 1; 1]%Z l) 0%Z = 1%Z)) /\
    (forall i l d, nth_error (n_labels nh) i = Some l -> (d < 3)%nat -> nth (3 * i + d) (concat (columns 0 (e_rows fh))) 0 = nth d (row_for fs [] l) 0).
  Proof.
    destruct Hd as (Hns & Hbs & Hfs & (eh0 & He & Hms) & H2 & Hnod & Hml & H3 & Hmem).
    destruct (build_tables _ _ _ _ _ _ HA Hns Hbs Hfs Hnod H2 Hb)
      as (Mb & Mf & ns2 & w & Hns2 & Hp2 & _ & Hb' & Hw0 & _ & Hw1 & Hf' & _).
    rewrite En in Hns2. destruct Hns2 as [N1 N2]. assert (Hlen : length ns2 = length ns) by (apply Permutation_length, Hp2).
    assert (Hin : forall l, In l (map fst ns2) <-> In l (map fst ns)).
    { intros l. split; apply Permutation_in; [|apply Permutation_sym]; apply Permutation_map, Hp2. }
    assert (H3' : forall l, length (row_for bs [1; 1; 1]%Z l) = 3%nat).
    { intros l. destruct (in_dec Z.eq_dec l (map fst bs)) as [Hi|Hi].
      - apply in_map_iff in Hi. destruct Hi as ([l' v] & E & Hi). cbn in E. subst l'.
        rewrite (row_for_In bs _ l v (proj1 Mb) Hi). apply H3. apply in_map_iff. exists (l, v). auto.
      - rewrite row_for_notin by exact Hi. reflexivity. }
    split; [rewrite N1; exact Hin|]. split; [rewrite N1; eapply Permutation_NoDup; [apply Permutation_map, Permutation_sym, Hp2|exact Hnod]|].
    split. { intros l Hl. rewrite N1, N2, row_of_for. apply row_for_perm; [exact Hnod|exact Hp2|]. rewrite N1 in Hl. apply Hin, Hl. }
    split.
    - destruct (build_dofs _ _ _ _ HA Hb Hb') as (u & Eu' & HD1 & _).
      { unfold rows_for. rewrite !map_length. lia. }
      { intros r Hr. unfold rows_for in Hr. rewrite map_map in Hr. apply in_map_iff in Hr. destruct Hr as (l & <- & _). apply H3'. }
      assert (u = u1) by congruence. subst u. intros i l d Hi Hdd. rewrite HD1. destruct (div3 i d Hdd) as [D1 D2]. rewrite D1, D2.
      unfold rows_for. rewrite map_map. cbn [snd]. rewrite N1 in Hi. rewrite (map_nth_error _ _ _ Hi). split.
      + intros (r & Er & E1). injection Er as <-. apply nth_error_nth. exact E1.
      + intros E1. eexists. split; [reflexivity|].
        pose proof (nth_nth_error (row_for bs [1; 1; 1]%Z l) d 0%Z) as G. rewrite H3', E1 in G. exact (G Hdd).
    - rewrite Ef in Hf'. destruct Hf' as (F1 & F2 & F3). intros i l d Hi Hdd. rewrite N1 in Hi. pose proof (nth_error_In _ _ Hi) as Hl.
      assert (Er : nth_error (e_rows fh) i = Some (row_for fs (repeat 0 w) l)).
      { rewrite F2. unfold rows_for. rewrite map_map. cbn [snd]. apply (map_nth_error (fun l => row_for fs (repeat 0 w) l)). exact Hi. }
      assert (Ec : nth_error (columns 0 (e_rows fh)) i = Some (firstn 3 (row_for fs (repeat 0 w) l))).
      { unfold columns. rewrite (map_nth_error _ _ _ Er). reflexivity. }
      rewrite nth_concat3.
      + rewrite (nth_error_nth _ _ _ Ec), nth_firstn by exact Hdd. destruct (in_dec Z.eq_dec l (map fst fs)) as [Hf|Hf].
        * apply in_map_iff in Hf. destruct Hf as ([l' v] & E & Hf). cbn in E. subst l'. rewrite !(row_for_In fs _ l v (proj1 Mf) Hf). reflexivity.
        * rewrite !row_for_notin by exact Hf. rewrite nth_repeat. destruct d; reflexivity.
      + intros r Hr. unfold columns in Hr. apply in_map_iff in Hr. destruct Hr as (r' & <- & Hr). specialize (Hwd r' Hr). change (length (firstn 3 r') = 3%nat). rewrite firstn_length. lia.
      + exact Hdd.
      + apply nth_error_Some. congruence.
  Qed.
End Tables.

Lemma flat_row (labels : list Z) (U : list (v3 R)) i l d : NoDup labels -> length U = length labels -> nth_error labels i = Some l -> (d < 3)%nat ->
  vget (row_of labels U vzero l) d = nth (3 * i + d) (vflat U) 0.
Proof.
  intros Hn HL Hi Hd. assert (Hlt : (i < length U)%nat) by (rewrite HL; apply nth_error_Some; congruence).
  pose proof (nth_error_In _ _ Hi) as Hl. rewrite row_of_nth by auto. rewrite (idx_of_nth _ _ _ Hn Hi). destruct (div3 i d Hd) as [D1 D2].
  assert (E : nth_error (vflat U) (3 * i + d) = Some (vget (nth i U vzero) d)).
  { rewrite nth_error_vflat, D1, D2, (nth_nth_error U _ vzero Hlt). reflexivity. }
  symmetry. apply nth_error_nth with (d := 0) in E. exact E.
Qed.

Lemma unit_dot (e z : v3 R) B : vdot e e = 1 -> (forall d, (d < 3)%nat -> Rabs (vget z d) <= B) -> Rabs (vdot e z) <= 3 * B.
Proof.
  intros He Hz. destruct e as [e1 e2 e3], z as [z1 z2 z3]. unfold vdot in *. cbn in *. numR.
  pose proof (Hz 0%nat ltac:(lia)) as Z1. pose proof (Hz 1%nat ltac:(lia)) as Z2. pose proof (Hz 2%nat ltac:(lia)) as Z3. cbn in Z1, Z2, Z3.
  assert (Q : forall t, t * t <= 1 -> Rabs t <= 1).
  { intros t Ht. pose proof (Rabs_pos t). replace (t * t) with (Rabs t * Rabs t) in Ht by (unfold Rabs; destruct (Rcase_abs t); ring). nra. }
  assert (E1 : Rabs e1 <= 1) by (apply Q; nra). assert (E2 : Rabs e2 <= 1) by (apply Q; nra). assert (E3 : Rabs e3 <= 1) by (apply Q; nra).
  assert (M : forall a b, Rabs a <= 1 -> Rabs b <= B -> Rabs (a * b) <= B).
  { intros a b Ha Hb. rewrite Rabs_mult. pose proof (Rabs_pos a). pose proof (Rabs_pos b). nra. }
  eapply Rle_trans; [apply Rabs_triang|]. pose proof (Rabs_triang (e1 * z1) (e2 * z2)). pose proof (M _ _ E1 Z1). pose proof (M _ _ E2 Z2). pose proof (M _ _ E3 Z3). lra.
Qed.

Section Fresh.
  Variables (argsortZ : list Z -> list nat) (argsortF : list R -> list nat) (solve : list (list R) -> list R -> list R).
  Variables (m : model R) (ns : list (Z * v3 R)) (ms : list (member R)) (bs : list (Z * list Z)) (fs : list (Z * list R)).
  Variables (m1 : model R) (u1 : built R) (nh : nodeH R) (eh : elemH R) (fh : forceH R) (j : Z).
  Notation c := (ctx_of m1 u1 nh eh).
  Notation n := (S (u_ndof1 u1)).
  Notation p := (Z.to_nat (Z.abs j - 1)).
  Hypotheses (HA : argsort_ok argsortZ) (Hsort : forall l, Permutation (argsortF l) (seq 0 (length l))) (Hd : described m ns ms bs fs)
    (Hel : forall b, In b ms -> elastic_at_first b /\ 0 < EA b)
    (Hax : forall b p q, In b ms -> In (mb_a b, p) ns -> In (mb_b b, q) ns -> p <> q)
    (Hb : build argsortZ m = Ok m1) (Eu : m_built m1 = Some u1) (En : m_nodes m1 = Some nh) (Ee : m_elems m1 = Some eh) (Ef : m_forces m1 = Some fh)
    (Hwd : forall r, In r (e_rows fh) -> (3 <= length r)%nat)
    (Hn : (1 <= u_ndof1 u1)%nat) (Hj : (1 <= Z.abs j <= Z.of_nat n)%Z) (Hsol : solves n solve).

  Lemma bar_axis b : In b ms -> bar ns b = axis0 c b.
  Proof.
    intros Hbm. destruct Hd as (_ & _ & _ & _ & _ & _ & _ & _ & Hmem). destruct (Hmem b Hbm) as (M1 & M2 & _).
    destruct (table_rows argsortZ m ns ms bs fs m1 u1 nh fh HA Hd Hb Eu En Ef Hwd) as (T1 & _ & T3 & _).
    unfold bar, axis0, position. cbn [ctx_of c_labels c_coords]. rewrite !T3 by (apply T1; assumption). reflexivity.
  Qed.

  Lemma pull_sg v l b d : In b ms -> len (axis0 c b) <> 0 ->
    sg b l * (EA b / len (axis0 c b) * vdot (unit0 c b) (delta v b) * vget (unit0 c b) d) = vget (linear_pull ns v l b) d.
  Proof.
    intros Hbm Hl. unfold linear_pull, linear_force, elongation. rewrite bar_axis by exact Hbm. unfold unit0, sg, delta. cbv zeta.
    generalize (vsub (v (mb_b b)) (v (mb_a b))). intros [w1 w2 w3]. generalize dependent (len (axis0 c b)). intros L HL.
    destruct (axis0 c b) as [a1 a2 a3].
    destruct (Z.eqb l (mb_b b)); [|destruct (Z.eqb l (mb_a b))]; destruct d as [|[|d]]; unfold vscale, vneg, vmap, vdot, vzero; cbn [vget Vec.vx Vec.vy Vec.vz]; numR; field; exact HL.
  Qed.

  Section AtRest.
    Variables (an a2 : analysis R) (Km : list (list R)).
    Hypothesis HR : at_rest ns ms m1 u1 nh eh fh j an a2 Km.
    Definition free_part (v : Z -> v3 R) : list R := map (fun p => vget (v (lab c p)) (p mod 3)) (a_DOF1 an).

    Lemma DOF_same : a_DOF1 an = a_DOF1 (u_an u1).
    Proof. destruct HR as (_ & _ & _ & _ & _ & _ & _ & _ & _ & _ & _ & _ & (_ & _ & _ & _ & S5) & _). rewrite S5. reflexivity. Qed.

    Lemma rest_unstrained : unstrained c ms an.
    Proof. destruct HR as (_ & _ & _ & _ & _ & _ & _ & _ & _ & _ & _ & _ & Hs & _). exact (starts_unstrained _ _ _ _ _ _ _ _ nh eh _ an Hd Hb Eu Hs). Qed.

    Lemma free_length v : length (free_part v) = c_ndof1 c.
    Proof. unfold free_part. rewrite map_length. destruct HR as (_ & Hsz & _). destruct Hsz as (_ & _ & _ & _ & _ & _ & _ & _ & _ & _ & H & _). symmetry. exact H. Qed.

    Lemma free_spreads v : (forall l d, In l (map fst ns) -> (d < 3)%nat -> nth d (row_for bs [1; 1; 1]%Z l) 0%Z <> 1%Z -> vget (v l) d = 0) ->
      spreads c an (free_part v) v.
    Proof.
      intros Hv. destruct (table_rows argsortZ m ns ms bs fs m1 u1 nh fh HA Hd Hb Eu En Ef Hwd) as (T1 & _ & _ & T4 & _). split.
      - intros i p l Hi Hl. unfold free_part. rewrite (nth_error_nth _ _ _ (map_nth_error (fun p => vget (v (lab c p)) (p mod 3)) _ _ Hi)).
        unfold lab. rewrite (nth_error_nth _ _ _ Hl). reflexivity.
      - intros p l Hl Hp. rewrite DOF_same in Hp. pose proof (Nat.div_mod p 3 ltac:(lia)) as Ep. pose proof (Nat.mod_upper_bound p 3 ltac:(lia)) as Hm.
        cbn [ctx_of c_labels] in Hl. apply Hv; [apply T1; eapply nth_error_In; eauto|exact Hm|]. intros G. apply Hp. rewrite Ep. apply (T4 _ l); assumption.
    Qed.

    Lemma linear_rows v x : length x = c_ndof1 c -> spreads c an x v ->
      ((forall i, (i < c_ndof1 c)%nat -> row_times Km (x ++ [1]) i = 0) <->
       (forall l d, In l (map fst ns) -> (d < 3)%nat -> nth d (row_for bs [1; 1; 1]%Z l) 0%Z = 1%Z -> rsum (map (fun b => vget (linear_pull ns v l b) d) ms) = nth d (row_for fs [] l) 0)).
    Proof.
      intros Lx Hv. destruct (table_rows argsortZ m ns ms bs fs m1 u1 nh fh HA Hd Hb Eu En Ef Hwd) as (T1 & _ & _ & T4 & T5).
      destruct HR as (Htr & Hsz & _ & _ & Hf0 & _ & _ & HU2 & _ & Hax0 & HK & _ & (_ & _ & S3 & _) & _).
      pose proof Hsz as (_ & _ & _ & _ & _ & _ & _ & _ & HD & HD' & Hnn & _).
      assert (Lf : length (a_f0red an) = c_ndof1 c) by (apply gather_length in Hf0; rewrite Hf0; symmetry; exact Hnn).
      assert (HE : forall i p l, nth_error (a_DOF1 an) i = Some p -> nth_error (n_labels nh) (p / 3) = Some l ->
        row_times Km (x ++ [1]) i = rsum (map (fun b => vget (linear_pull ns v l b) (p mod 3)) ms) - nth (p mod 3) (row_for fs [] l) 0).
      { intros i p l Hi Hl. assert (Hil : (i < c_ndof1 c)%nat) by (rewrite Hnn; apply nth_error_Some; congruence).
        rewrite (rest_rows c ms an j Htr Hsz Lf (fun b Hbm => proj1 (Hel b Hbm)) (unstrained_unyielded _ _ _ rest_unstrained) Hax0 ltac:(cbn [ctx_of c_ndof1]; lia) (repeat 0 n) a2 Km (length ns) v x i (repeat_length _ _) HK HU2 Lx Hv Hil).
        rewrite (nth_error_nth _ _ _ Hi). unfold lab. cbn [ctx_of c_labels]. rewrite (nth_error_nth _ _ _ Hl). f_equal.
        - apply rsum_ext. intros b Hbm. apply pull_sg; [exact Hbm|apply Hax0, Hbm].
        - destruct (gather_nth _ _ _ Hf0) as [_ G]. destruct (G i p Hi) as [G1 G2]. rewrite (nth_nth_error _ _ 0 G2) in G1. apply nth_error_nth with (d := 0) in G1. rewrite G1, S3.
          pose proof (Nat.div_mod p 3 ltac:(lia)) as Ep. pose proof (Nat.mod_upper_bound p 3 ltac:(lia)) as Hm.
          rewrite <- (T5 _ l (p mod 3) Hl Hm), <- Ep. reflexivity. }
      split.
      - intros H l d Hl Hdd Hfr. apply T1 in Hl. destruct (In_nth_error _ _ Hl) as [i0 Hi0]. apply (T4 i0 l d Hi0 Hdd) in Hfr. rewrite <- DOF_same in Hfr.
        destruct (In_nth_error _ _ Hfr) as [i Hi]. destruct (div3 i0 d Hdd) as [D1 D2]. specialize (HE i _ l Hi). rewrite D1, D2 in HE. specialize (HE Hi0).
        rewrite H in HE; [lra|]. rewrite Hnn. apply nth_error_Some. congruence.
      - intros H i Hi. destruct (nth_error (a_DOF1 an) i) as [p|] eqn:Ep; [|apply nth_error_None in Ep; lia].
        pose proof (Nat.div_mod p 3 ltac:(lia)) as Epd. pose proof (Nat.mod_upper_bound p 3 ltac:(lia)) as Hm.
        assert (Hp3 : (p / 3 < length (c_labels c))%nat) by (apply Nat.div_lt_upper_bound; [lia|]; apply HD'; eapply nth_error_In; eauto).
        cbn [ctx_of c_labels] in Hp3. destruct (nth_error (n_labels nh) (p / 3)) as [l|] eqn:El; [|apply nth_error_None in El; lia].
        rewrite (HE i p l Ep El). rewrite H; [ring|apply T1; eapply nth_error_In; eauto|exact Hm|].
        apply (T4 _ l _ El Hm). rewrite <- Epd, <- DOF_same. eapply nth_error_In; eauto.
    Qed.

    Hypothesis rest_ns : nonsingular n Km.

    Lemma rest_len : length (repeat 0 n) = S (c_ndof1 c).
    Proof. apply repeat_length. Qed.

    Lemma rest_control z : Z.abs j = Z.of_nat n -> length z = n -> row_times Km z (c_ndof1 c) = nth (c_ndof1 c) z 0.
    Proof.
      intros Hlast Hz. destruct HR as (Htr & Hsz & Hld & Hpr & Hf0 & _ & _ & _ & _ & _ & HK & _ & _ & _).
      rewrite (control_row c ms an j (repeat 0 n) Htr Hsz Hld Hpr Hf0 rest_len ltac:(cbn [ctx_of c_ndof1]; lia) a2 Km HK z Hz).
      replace (Z.to_nat (Z.abs j - 1)) with (c_ndof1 c) by (cbn [ctx_of c_ndof1]; lia). reflexivity.
    Qed.

    Lemma linear_exists : Z.abs j = Z.of_nat n -> exists v, linear_solution ns ms bs fs v.
    Proof.
      intros Hlast.      pose proof HR as (Htr & Hsz & Hld & Hpr & Hf0 & _ & _ & _ & _ & _ & HK & _ & _ & _).
      pose proof Hsz as (_ & _ & _ & _ & _ & _ & _ & _ & HD & HD' & Hnn & _).
      destruct (table_rows argsortZ m ns ms bs fs m1 u1 nh fh HA Hd Hb Eu En Ef Hwd) as (T1 & _ & _ & T4 & T5).
      assert (Hsq : sq n Km).
      { destruct (J0_entry c ms an (repeat 0 n) j Htr Hsz Hld Hpr rest_len Hf0 ltac:(cbn [ctx_of c_ndof1]; lia) (repeat 0 n) rest_len) as [G _]. unfold J0 in G. rewrite HK in G. exact G. }
      destruct (Hsol Km (repeat 0 (u_ndof1 u1) ++ [1]) (proj1 Hsq) (proj2 Hsq) rest_ns) as [Ly Hy]; [rewrite app_length, repeat_length; cbn; lia|].
      set (y := solve Km (repeat 0 (u_ndof1 u1) ++ [1])) in *. destruct (snoc_split y _ Ly) as [Ey Lx]. set (x := removelast y) in *.
      assert (E1 : last y 0 = 1).
      { pose proof (Hy (u_ndof1 u1) ltac:(lia)) as G. change (u_ndof1 u1) with (c_ndof1 c) in G at 1. rewrite rest_control in G by (exact Hlast || exact Ly).
        rewrite app_nth2 in G by (rewrite repeat_length; lia). rewrite repeat_length, Nat.sub_diag in G. cbn [nth] in G. rewrite <- G. rewrite Ey at 2.
        change (c_ndof1 c) with (u_ndof1 u1). rewrite app_nth2 by lia. rewrite Lx, Nat.sub_diag. reflexivity. }
      rewrite E1 in Ey. destruct (spread_exists c ms an x Htr Hsz Lx) as [v Hv]. exists v. split.
      - intros l d Hl Hdd Hne. apply T1 in Hl. destruct (In_nth_error _ _ Hl) as [i Hi]. destruct (div3 i d Hdd) as [D1 D2].
        pose proof (proj2 Hv (3 * i + d)%nat l) as G. rewrite D1, D2 in G. apply G; [exact Hi|]. rewrite DOF_same. intros G'. apply Hne. apply (T4 i l d Hi Hdd). exact G'.
      - apply (linear_rows v x Lx Hv). intros i Hi. rewrite <- Ey. change (c_ndof1 c) with (u_ndof1 u1) in Hi. rewrite Hy by lia.
        rewrite app_nth1 by (rewrite repeat_length; lia). apply nth_repeat.
    Qed.

    Lemma linear_unique v v' : Z.abs j = Z.of_nat n -> linear_solution ns ms bs fs v -> linear_solution ns ms bs fs v' -> forall l, In l (map fst ns) -> v l = v' l.
    Proof.
      intros Hlast [V1 V2] [W1 W2]. pose proof HR as (_ & Hsz & _). pose proof Hsz as (_ & _ & _ & _ & _ & _ & _ & _ & HD & HD' & Hnn & _).
      destruct (table_rows argsortZ m ns ms bs fs m1 u1 nh fh HA Hd Hb Eu En Ef Hwd) as (T1 & _ & _ & T4 & T5).
      pose proof (proj2 (linear_rows v _ (free_length v) (free_spreads v V1)) V2) as Rv. pose proof (proj2 (linear_rows v' _ (free_length v') (free_spreads v' W1)) W2) as Rw.
      set (y := free_part v ++ [1]) in *. set (y' := free_part v' ++ [1]) in *.
      assert (Ly : length y = n) by (unfold y; rewrite app_length, free_length; cbn; lia). assert (Ly' : length y' = n) by (unfold y'; rewrite app_length, free_length; cbn; lia).
      set (z := map (fun k => nth k y 0 - nth k y' 0) (seq 0 n)). assert (Lz : length z = n) by (unfold z; rewrite map_length, seq_length; reflexivity).
      assert (Hz : forall k, (k < n)%nat -> nth k z 0 = nth k y 0 - nth k y' 0) by (intros k Hk; apply (nth_map_seq (fun k => nth k y 0 - nth k y' 0)); exact Hk).
      assert (Z0 : forall k, (k < n)%nat -> nth k z 0 = 0).
      { apply (rest_ns z Lz). intros i Hi. destruct (Nat.eq_dec i (c_ndof1 c)) as [->|Hne].
        - rewrite rest_control by (exact Hlast || exact Lz). rewrite Hz by (cbn [ctx_of c_ndof1]; lia). unfold y, y'. rewrite !app_nth2 by (rewrite free_length; lia). rewrite !free_length, Nat.sub_diag. cbn. ring.
        - rewrite (row_times_len _ _ _ n Lz). rewrite (rsum_ext _ (fun k => ent Km i k * nth k y 0 - ent Km i k * nth k y' 0)).
          2:{ intros k Hk. apply in_seq in Hk. rewrite Hz by lia. ring. }
          rewrite rsum_minus, <- (row_times_len Km y i n Ly), <- (row_times_len Km y' i n Ly'). assert (Hi' : (i < c_ndof1 c)%nat) by (cbn [ctx_of c_ndof1] in *; lia).
          rewrite (Rv i Hi'), (Rw i Hi'). ring. }
      intros l Hl. assert (Hl' : In l (n_labels nh)) by (apply T1, Hl). destruct (In_nth_error _ _ Hl') as [i Hi].
      assert (G : forall d, (d < 3)%nat -> vget (v l) d = vget (v' l) d).
      { intros d Hdd. destruct (Z.eq_dec (nth d (row_for bs [1; 1; 1]%Z l) 0%Z) 1) as [E|E]; [|rewrite (V1 l d Hl Hdd E), (W1 l d Hl Hdd E); reflexivity].
        apply (T4 i l d Hi Hdd) in E. rewrite <- DOF_same in E. destruct (In_nth_error _ _ E) as [k Hk].
        assert (Hkn : (k < c_ndof1 c)%nat) by (rewrite Hnn; apply nth_error_Some; congruence).
        assert (Fk : forall w, nth k (free_part w ++ [1]) 0 = vget (w l) d).
        { intros w. rewrite app_nth1 by (rewrite free_length; exact Hkn). unfold free_part.
          rewrite (nth_error_nth _ _ _ (map_nth_error (fun p => vget (w (lab c p)) (p mod 3)) _ _ Hk)).
          destruct (div3 i d Hdd) as [D1 D2]. unfold lab. rewrite D1, D2. cbn [ctx_of c_labels]. rewrite (nth_error_nth _ _ _ Hi). reflexivity. }
        pose proof (Z0 k ltac:(cbn [ctx_of c_ndof1] in Hkn; lia)) as Zk. rewrite Hz in Zk by (cbn [ctx_of c_ndof1] in Hkn; lia). unfold y, y' in Zk. rewrite !Fk in Zk. lra. }
      pose proof (G 0%nat ltac:(lia)) as G0. pose proof (G 1%nat ltac:(lia)) as G1. pose proof (G 2%nat ltac:(lia)) as G2.
      destruct (v l), (v' l). cbn in G0, G1, G2. congruence.
    Qed.
    Notation xs := (repeat 0 n).

    Lemma recorded_F0 x h a : length x = n -> evaluated c ms an j x h a -> forall i, (i < c_ndof1 c)%nat -> nth i (F0 c an xs j 0 x) 0 = - nth i h 0.
    Proof.
      intros Lx (k0 & x0 & an3 & Hk & L0 & He & _) i Hi. pose proof HR as (Htr & Hsz & Hld & Hpr & Hf0 & _).
      assert (Hj' : (1 <= Z.abs j <= Z.of_nat (S (c_ndof1 c)))%Z) by (cbn [ctx_of c_ndof1]; lia).
      destruct (like_ok c ms an xs j Hsz Hld Hpr rest_len Hf0 Hj' k0 Hk) as (S1 & S2 & S3 & _).
      destruct (C15_evaluations_succeed c ms (set_j j k0) Htr S1 S2 S3) as [Hev _]. destruct (Hev x xs false Lx rest_len) as (a0' & g0 & He0).
      destruct (like_fn c ms an xs j 0 Htr Hsz Hld Hpr rest_len Hf0 Hj' x k0 Lx Hk) as (an' & E & _). unfold f_ext in E. rewrite He0 in E. cbn [bind] in E.
      destruct (py_get x (Z.abs j - 1)) as [xj| |]; cbn [bind] in E; try discriminate E. injection E as _ E. change (0 :: repeat 0 (u_ndof1 u1)) with (repeat 0 n) in E. rewrite <- E.
      pose proof (residual_V0 c ms x x0 xs true false (set_j j k0) _ _ _ _ Htr S1 S2 Lx He He0) as Eg. subst g0.
      destruct (residual_formula c ms x x0 true (set_j j k0) _ _ Htr S1 S2 Lx He) as (_ & L & _).
      pose proof S1 as (_ & _ & _ & _ & _ & _ & _ & _ & _ & _ & Hnn & _). cbn [a_DOF1 set_j] in L.
      rewrite app_nth1 by (rewrite map_length; lia). rewrite (nth_indep _ 0 (fopp 0)) by (rewrite map_length; lia). rewrite map_nth. reflexivity.
    Qed.

    Lemma first_part (x : list R) : length x = n -> firstn (c_ndof1 c) x = removelast x.
    Proof.
      intros Lx. destruct (snoc_split x _ Lx) as [Ex Lr].
      rewrite Ex at 1. rewrite firstn_app, firstn_all2, Lr by (cbn [ctx_of c_ndof1]; lia). cbn [ctx_of c_ndof1]. rewrite Nat.sub_diag. cbn [firstn]. apply app_nil_r.
    Qed.

    Lemma recorded_spread x h a : length x = n -> evaluated c ms an j x h a -> spreads c an (removelast x) (row_of (n_labels nh) (a_U a) vzero).
    Proof.
      intros Lx (k0 & x0 & an3 & Hk & L0 & He & ->). pose proof HR as (Htr & Hsz & Hld & Hpr & Hf0 & _ & HU0 & _).
      assert (Hj' : (1 <= Z.abs j <= Z.of_nat (S (c_ndof1 c)))%Z) by (cbn [ctx_of c_ndof1]; lia).
      destruct (like_ok c ms an xs j Hsz Hld Hpr rest_len Hf0 Hj' k0 Hk) as (S1 & S2 & S3 & _).
      destruct (residual_formula c ms x x0 true (set_j j k0) _ _ Htr S1 S2 Lx He) as (Hsc & _ & _). cbn [a_U a_DOF1 set_j] in Hsc.
      destruct Hk as ((_ & _ & HD1 & _ & _ & _ & LU & _ & HUk & _) & _ & _). rewrite HD1 in Hsc.
      pose proof Hsz as (LUn & _ & _ & _ & _ & _ & _ & _ & HD & HD' & Hnn & _). pose proof Htr as (Hnd & _).
      destruct (snoc_split x _ Lx) as [Ex Lr].
      rewrite (first_part x Lx) in Hsc. destruct (scatter_ok _ _ _ _ HD ltac:(rewrite Lr; exact Hnn) Hsc) as (L3 & G1 & G2).
      assert (L3' : length (a_U an3) = length (n_labels nh)) by (rewrite L3, LU; exact LUn).
      cbn [a_U set_lpf set_Ured set_Vred]. cbn [ctx_of c_labels] in Hnd.
      assert (Q : forall p l, nth_error (c_labels c) (p / 3) = Some l -> vget (row_of (n_labels nh) (a_U an3) vzero l) (p mod 3) = nth p (vflat (a_U an3)) 0).
      { intros p l Hl. pose proof (Nat.div_mod p 3 ltac:(lia)) as Ep. rewrite (flat_row _ _ (p / 3) l (p mod 3) Hnd L3' Hl (Nat.mod_upper_bound p 3 ltac:(lia))), <- Ep. reflexivity. }
      split.
      - intros i p l Hi Hl. rewrite Q by exact Hl. pose proof (G2 i p Hi) as G. assert (Hil : (i < length (removelast x))%nat) by (rewrite Lr; change (u_ndof1 u1) with (c_ndof1 c); rewrite Hnn; apply nth_error_Some; congruence).
        rewrite (nth_nth_error (removelast x) i 0 Hil) in G. apply nth_error_nth with (d := 0) in G. exact G.
      - intros p l Hl Hp. rewrite Q by exact Hl. pose proof (G1 p Hp) as G. rewrite (HUk p Hp), HU0, (nth_error_vflat (zeros3 _)) in G. unfold zeros3 in G. rewrite nth_error_repeat in G.
        destruct (p / 3 <? length ns)%nat.
        + apply nth_error_nth with (d := 0) in G. rewrite G. apply vget_vzero.
        + apply nth_error_None in G. apply nth_overflow. exact G.
    Qed.

    Lemma recorded_force x h a i b : length x = n -> evaluated c ms an j x h a -> nth_error ms i = Some b ->
      (mb_law b = UmatPl -> Rabs (nth 0 (mb_mat b) 0 * (stretch_of c (a_U a) b - 1)) <= nth 2 (mb_mat b) 0) ->
      nth_error (a_force a) i = Some (EA b * (stretch_of c (a_U a) b - 1)).
    Proof.
      intros Lx (k0 & x0 & an3 & Hk & L0 & He & ->) Hi Hy. pose proof HR as (Htr & Hsz & Hld & Hpr & Hf0 & _).
      assert (Hj' : (1 <= Z.abs j <= Z.of_nat (S (c_ndof1 c)))%Z) by (cbn [ctx_of c_ndof1]; lia).
      destruct (like_ok c ms an xs j Hsz Hld Hpr rest_len Hf0 Hj' k0 Hk) as (S1 & _).
      destruct (internal_forces_any c ms x x0 true (set_j j k0) _ _ Htr S1 He) as [I1 _]. destruct (I1 i b Hi) as (s & t & st & A & U1 & U2 & _ & _ & U3).
      cbn [a_force a_U set_lpf set_Ured set_Vred] in *. rewrite U3. f_equal. specialize (U1 0). destruct Hk as (_ & _ & Hrw).
      change (state_row c (set_j j k0) i) with (state_row c k0 i) in U1. pose proof (same_row_umat b _ _ (stretch_of c (a_U an3) b - 1) 0 (Hrw i b Hi)) as Hsr.
      destruct (hooke b (state_row c an i) (stretch_of c (a_U an3) b - 1) (proj1 (Hel b (nth_error_In _ _ Hi))) (unstrained_unyielded _ _ _ rest_unstrained i b Hi) Hy 0) as [st' E'].
      rewrite E', U1 in Hsr. cbn in Hsr. injection Hsr as -> _. unfold EA. destruct (mb_geo b) as [|A0 ?]; [discriminate|]. cbn [nth_error] in U2. injection U2 as <-. cbn [nth]. ring.
    Qed.

    (** Displacements within [D] of the linear ones give forces near the linear ones. *)
    Lemma force_near U v lam s D b : In b ms -> 0 <= s -> 8 * s <= len (axis0 c b) ->
      (forall l d, In l (map fst ns) -> (d < 3)%nat -> Rabs (vget (row_of (n_labels nh) U vzero l) d) <= s) ->
      (forall l d, In l (map fst ns) -> (d < 3)%nat -> Rabs (vget (row_of (n_labels nh) U vzero l) d - lam * vget (v l) d) <= D) ->
      Rabs (EA b * (stretch_of c U b - 1) - lam * linear_force ns v b) <= EA b / len (axis0 c b) * (24 * s ^ 2 / len (axis0 c b) + 6 * D).
    Proof.
      intros Hbm Hs0 H8 Hs HD. pose proof HR as (_ & _ & _ & _ & _ & _ & _ & _ & _ & Hax0 & _). pose proof (Hax0 b Hbm) as HL. destruct (Hel b Hbm) as [_ HEA].
      destruct Hd as (_ & _ & _ & _ & _ & _ & _ & _ & Hmem). destruct (Hmem b Hbm) as (M1 & M2 & _).
      assert (HL0 : 0 < len (axis0 c b)) by (pose proof (sqrt_pos (vdot (axis0 c b) (axis0 c b))) as G; change (0 <= len (axis0 c b)) in G; lra).
      set (Ub := row_of (n_labels nh) U vzero (mb_b b)) in *. set (Ua := row_of (n_labels nh) U vzero (mb_a b)) in *.
      assert (Eax : axis c U b = vadd (axis0 c b) (vsub Ub Ua)).
      { unfold axis, axis0, place. cbn [ctx_of c_labels c_coords]. fold Ub. fold Ua.
        generalize (row_of (n_labels nh) (n_coords nh) vzero (mb_a b)), (row_of (n_labels nh) (n_coords nh) vzero (mb_b b)), Ub, Ua.
        intros [? ? ?] [? ? ?] [? ? ?] [? ? ?]. unfold vsub, vadd, vmap2. cbn. f_equal; ring. }
      assert (Hw : forall d, Rabs (vget (vsub Ub Ua) d) <= 2 * s).
      { assert (G : forall d, (d < 3)%nat -> Rabs (vget (vsub Ub Ua) d) <= 2 * s).
        { intros d Hdd. replace (vget (vsub Ub Ua) d) with (vget Ub d + - vget Ua d) by (destruct Ub, Ua, d as [|[|d]]; unfold vsub, vmap2; cbn; ring).
          eapply Rle_trans; [apply Rabs_triang|]. rewrite Rabs_Ropp. pose proof (Hs (mb_b b) d M2 Hdd). pose proof (Hs (mb_a b) d M1 Hdd). fold Ub in H. fold Ua in H0. lra. }
        intros d. destruct (le_lt_dec 3 d) as [H|H]; [|apply G, H]. destruct d as [|[|d]]; [lia|lia|]. specialize (G 2%nat ltac:(lia)). exact G. }
      pose proof (stretch_first (axis0 c b) (vsub Ub Ua) s HL0 Hs0 H8 Hw) as St. cbv zeta in St. rewrite <- Eax in St.
      unfold stretch_of, linear_force, elongation. rewrite (bar_axis b Hbm).
      set (L := len (axis0 c b)) in *. set (wv := vsub (v (mb_b b)) (v (mb_a b))).
      set (z := vsub (vsub Ub Ua) (vscale lam wv)).
      assert (Hz : Rabs (vdot (unit0 c b) z) <= 3 * (2 * D)).
      { apply unit_dot.
        - unfold unit0. fold L. assert (E : vdot (axis0 c b) (axis0 c b) = L * L) by (unfold L, len; rewrite sqrt_sqrt; [reflexivity|destruct (axis0 c b); unfold vdot; cbn; nra]).
          destruct (axis0 c b) as [x y t]. unfold vscale, vmap, vdot in *. cbn in *. transitivity (/ L * / L * (x * x + y * y + t * t)); [ring|]. rewrite E. field. exact HL.
        - intros d Hdd. replace (vget z d) with ((vget Ub d - lam * vget (v (mb_b b)) d) + - (vget Ua d - lam * vget (v (mb_a b)) d))
            by (unfold z, wv; destruct Ub, Ua, (v (mb_b b)), (v (mb_a b)), d as [|[|d]]; unfold vsub, vscale, vmap, vmap2; cbn; ring).
          eapply Rle_trans; [apply Rabs_triang|]. rewrite Rabs_Ropp. pose proof (HD (mb_b b) d M2 Hdd) as G1. pose proof (HD (mb_a b) d M1 Hdd) as G2. fold Ub in G1. fold Ua in G2. lra. }
      assert (Ez : vdot (unit0 c b) z = vdot (axis0 c b) (vsub Ub Ua) / L - lam * (vdot (axis0 c b) wv / L)).
      { unfold unit0, z. fold L. destruct (axis0 c b), (vsub Ub Ua), wv. unfold vsub, vscale, vmap, vmap2, vdot. cbn. field. exact HL. }
      rewrite Ez in Hz. set (t := vdot (axis0 c b) (vsub Ub Ua) / L) in *. set (t' := vdot (axis0 c b) wv / L) in *. set (ell := len (axis c U b)) in *.
      replace (EA b * (ell / L - 1) - lam * (EA b * t' / L)) with (EA b / L * ((ell - L - t) + (t - lam * t'))) by (field; exact HL).
      assert (HE : 0 < EA b / L) by (apply Rdiv_lt_0_compat; assumption).
      rewrite Rabs_mult, (Rabs_pos_eq (EA b / L)) by lra. apply Rmult_le_compat_l; [lra|]. eapply Rle_trans; [apply Rabs_triang|].
      rewrite (Rabs_pos_eq (ell - L - t)) by apply St. lra.
    Qed.

    (** The strain of a bar whose ends move by at most [s]. *)
    Lemma strain_near U s b : In b ms -> 0 <= s -> 8 * s <= len (axis0 c b) ->
      (forall l d, In l (map fst ns) -> (d < 3)%nat -> Rabs (vget (row_of (n_labels nh) U vzero l) d) <= s) ->
      Rabs (stretch_of c U b - 1) <= 9 * s / len (axis0 c b).
    Proof.
      intros Hbm Hs0 H8 Hs. pose proof HR as (_ & _ & _ & _ & _ & _ & _ & _ & _ & Hax0 & _). pose proof (Hax0 b Hbm) as HL.
      destruct Hd as (_ & _ & _ & _ & _ & _ & _ & _ & Hmem). destruct (Hmem b Hbm) as (M1 & M2 & _).
      assert (HL0 : 0 < len (axis0 c b)) by (pose proof (sqrt_pos (vdot (axis0 c b) (axis0 c b))) as G; change (0 <= len (axis0 c b)) in G; lra).
      set (Ub := row_of (n_labels nh) U vzero (mb_b b)) in *. set (Ua := row_of (n_labels nh) U vzero (mb_a b)) in *.
      assert (Eax : axis c U b = vadd (axis0 c b) (vsub Ub Ua)).
      { unfold axis, axis0, place. cbn [ctx_of c_labels c_coords]. fold Ub. fold Ua.
        generalize (row_of (n_labels nh) (n_coords nh) vzero (mb_a b)), (row_of (n_labels nh) (n_coords nh) vzero (mb_b b)), Ub, Ua.
        intros [? ? ?] [? ? ?] [? ? ?] [? ? ?]. unfold vsub, vadd, vmap2. cbn. f_equal; ring. }
      assert (G : forall d, (d < 3)%nat -> Rabs (vget (vsub Ub Ua) d) <= 2 * s).
      { intros d Hdd. replace (vget (vsub Ub Ua) d) with (vget Ub d + - vget Ua d) by (destruct Ub, Ua, d as [|[|d]]; unfold vsub, vmap2; cbn; ring).
        eapply Rle_trans; [apply Rabs_triang|]. rewrite Rabs_Ropp. pose proof (Hs (mb_b b) d M2 Hdd). pose proof (Hs (mb_a b) d M1 Hdd). fold Ub in H. fold Ua in H0. lra. }
      assert (Hw : forall d, Rabs (vget (vsub Ub Ua) d) <= 2 * s).
      { intros d. destruct (le_lt_dec 3 d) as [H|H]; [|apply G, H]. destruct d as [|[|d]]; [lia|lia|]. specialize (G 2%nat ltac:(lia)). exact G. }
      pose proof (stretch_first (axis0 c b) (vsub Ub Ua) s HL0 Hs0 H8 Hw) as St. cbv zeta in St. rewrite <- Eax in St. unfold stretch_of.
      set (L := len (axis0 c b)) in *. set (ell := len (axis c U b)) in *.
      assert (Hz : Rabs (vdot (unit0 c b) (vsub Ub Ua)) <= 3 * (2 * s)).
      { apply unit_dot; [|exact G]. unfold unit0. fold L. assert (E : vdot (axis0 c b) (axis0 c b) = L * L) by (unfold L, len; rewrite sqrt_sqrt; [reflexivity|destruct (axis0 c b); unfold vdot; cbn; nra]).
        destruct (axis0 c b) as [x y t]. unfold vscale, vmap, vdot in *. cbn in *. transitivity (/ L * / L * (x * x + y * y + t * t)); [ring|]. rewrite E. field. exact HL. }
      replace (vdot (unit0 c b) (vsub Ub Ua)) with (vdot (axis0 c b) (vsub Ub Ua) / L) in Hz
        by (unfold unit0; fold L; destruct (axis0 c b), (vsub Ub Ua); unfold vscale, vmap, vdot; cbn; field; exact HL).
      set (t := vdot (axis0 c b) (vsub Ub Ua) / L) in *.
      assert (H3 : 24 * s ^ 2 / L <= 3 * s).
      { apply (Rmult_le_reg_r L); [exact HL0|]. replace (24 * s ^ 2 / L * L) with (3 * s * (8 * s)) by (field; exact HL). apply Rmult_le_compat_l; lra. }
      replace (ell / L - 1) with ((ell - L) / L) by (field; exact HL). unfold Rdiv. rewrite Rabs_mult, (Rabs_pos_eq (/ L)) by (apply Rlt_le, Rinv_0_lt_compat; exact HL0).
      apply Rmult_le_compat_r; [apply Rlt_le, Rinv_0_lt_compat; exact HL0|]. apply Rabs_le. assert (- (6 * s) <= t <= 6 * s) by (unfold Rabs in Hz; destruct (Rcase_abs t); lra). lra.
    Qed.

    Lemma bounded_some (l : list R) : exists B, 0 <= B /\ forall i, Rabs (nth i l 0) <= B.
    Proof.
      induction l as [|t l (B & H0 & H)]; [exists 0; split; [lra|]; intros [|i]; cbn; rewrite Rabs_R0; lra|].
      exists (Rabs t + B). pose proof (Rabs_pos t). split; [lra|]. intros [|i]; cbn [nth]; [lra|]. specialize (H i). lra.
    Qed.

    Definition grip : R := 1 + rsum (map (fun b => let L := len (axis0 c b) in 6 * (EA b / L) + 24 * (EA b / L / L) + 8 / L + 9 * Rabs (nth 0 (mb_mat b) 0 / L / nth 2 (mb_mat b) 0)) ms).

    Lemma rsum_ge {A} (f : A -> R) l x : (forall x, In x l -> 0 <= f x) -> In x l -> f x <= rsum (map f l).
    Proof.
      intros Hf. induction l as [|y l IH]; intros Hx; [destruct Hx|]. cbn [map rsum fold_right]. fold (rsum (map f l)).
      pose proof (rsum_nonneg f l ltac:(intros; apply Hf; right; assumption)). pose proof (Hf y (or_introl eq_refl)).
      destruct Hx as [->|Hx]; [lra|]. pose proof (IH ltac:(intros; apply Hf; right; assumption) Hx). lra.
    Qed.

    Lemma grip_ge : 1 <= grip /\ forall b, In b ms -> let L := len (axis0 c b) in 0 < L /\ 6 * (EA b / L) + 24 * (EA b / L / L) <= grip /\ 8 <= grip * L /\ 9 * Rabs (nth 0 (mb_mat b) 0 / L / nth 2 (mb_mat b) 0) <= grip.
    Proof.
      pose proof HR as (_ & _ & _ & _ & _ & _ & _ & _ & _ & Hax0 & _).
      assert (P : forall b, In b ms -> 0 < len (axis0 c b) /\ 0 < EA b / len (axis0 c b) /\ 0 < EA b / len (axis0 c b) / len (axis0 c b) /\ 0 < 8 / len (axis0 c b)).
      { intros b Hbm. pose proof (Hax0 b Hbm) as HL. destruct (Hel b Hbm) as [_ HEA].
        assert (HL0 : 0 < len (axis0 c b)) by (pose proof (sqrt_pos (vdot (axis0 c b) (axis0 c b))) as G; change (0 <= len (axis0 c b)) in G; lra).
        assert (HE : 0 < EA b / len (axis0 c b)) by (apply Rdiv_lt_0_compat; assumption).
        split; [exact HL0|]. split; [exact HE|]. split; apply Rdiv_lt_0_compat; lra. }
      set (f := fun b => let L := len (axis0 c b) in 6 * (EA b / L) + 24 * (EA b / L / L) + 8 / L + 9 * Rabs (nth 0 (mb_mat b) 0 / L / nth 2 (mb_mat b) 0)).
      assert (Pf : forall b, In b ms -> 0 <= f b) by (intros b Hbm; unfold f; destruct (P b Hbm) as (P1 & P2 & P3 & P4); cbv zeta; pose proof (Rabs_pos (nth 0 (mb_mat b) 0 / len (axis0 c b) / nth 2 (mb_mat b) 0)); lra).
      assert (Eg : grip = 1 + rsum (map f ms)) by reflexivity. rewrite Eg. split; [pose proof (rsum_nonneg f ms Pf); lra|]. intros b Hbm L. destruct (P b Hbm) as (P1 & P2 & P3 & P4). fold L in P1, P2, P3, P4.
      pose proof (rsum_ge f ms b Pf Hbm) as G. unfold f at 1 in G. cbv zeta in G. fold L in G.
      pose proof (Rabs_pos (nth 0 (mb_mat b) 0 / L / nth 2 (mb_mat b) 0)) as Pa. split; [exact P1|]. split; [lra|]. split; [|lra].
      assert (G' : 8 / L <= 1 + rsum (map f ms)) by lra. apply (Rmult_le_compat_r L) in G'; [|lra]. replace (8 / L * L) with 8 in G' by (field; lra). exact G'.
    Qed.

    Lemma linear_run v tau eps : linear_solution ns ms bs fs v -> 0 < tau <= 1 -> 0 < eps ->
      exists eta, 0 < eta /\ forall fz xz, exists N, forall st k fuel, let d := step_size st j n in
        small_control st j n k tau -> s_ftol st = fz -> s_xtol st = xz -> (Z.of_nat N <= s_nfev st)%Z -> s_nstatev st = s_nstatev (m_set m1) ->
        0 < d <= eta -> INR k * d <= eta ->
        exists m2 out lg, ran_as argsortF solve (with_settings st m1) (S fuel) m2 out [lg] /\ lg_out lg = repeat MIncr k /\ length (lg_recs lg) = k /\
          forall q x a, nth_error (lg_recs lg) q = Some (x, a) ->
            x = a_Ured a ++ [a_lpf a] /\ length x = n /\ Rabs (nth p x 0 - INR (S q) * (IZR (Z.sgn j) * d)) <= INR (S q) * (tau * d) /\
            near_linear ns ms (n_labels nh) v (eps * (INR (S q) * d)) a.
    Proof.
      intros [V1 V2] Ht He. pose proof HR as (Htr & Hsz & Hld & Hpr & Hf0 & HUr & _ & HU2 & Hfc & Hax0 & HK & Hreg & _).
      pose proof Hsz as (_ & _ & _ & _ & _ & _ & _ & _ & HD & HD' & Hnn & _).
      assert (Hj' : (1 <= Z.abs j <= Z.of_nat (S (c_ndof1 c)))%Z) by (cbn [ctx_of c_ndof1]; lia).
      destruct (table_rows argsortZ m ns ms bs fs m1 u1 nh fh HA Hd Hb Eu En Ef Hwd) as (T1 & _ & _ & T4 & _).
      (* the residual vanishes at the origin *)
      assert (H0 : forall i, (i < c_ndof1 c)%nat -> nth i (F0 c an xs j 0 xs) 0 = 0).
      { intros i Hi. destruct (C15_evaluations_succeed c ms (set_j j an) Htr Hsz Hld Hpr) as [Hev _]. destruct (Hev xs xs false rest_len rest_len) as (a0 & g0 & He0).
        assert (Hl0 : last xs 0 = 0) by (clear; generalize n; intros k; induction k as [|[|k] IH]; [reflexivity|reflexivity|exact IH]).
        assert (HU0 : a_U a0 = zeros3 (length ns)).
        { destruct (dfdx_total c ms xs an j Htr Hsz Hld Hpr rest_len ltac:(apply gather_length in Hf0; lia) ltac:(rewrite rest_len; lia)) as (b2 & Kb & E & SU). rewrite HK in E. injection E as <- <-.
          destruct (residual_formula c ms xs xs false (set_j j an) _ _ Htr Hsz Hld rest_len He0) as (Hsc & _). cbn [a_U a_DOF1 set_j] in Hsc. rewrite (first_part xs rest_len), SU in Hsc. injection Hsc as <-. exact HU2. }
        pose proof (rest_residual c ms (set_j j an) Htr Hsz Hld (fun b Hbm => proj1 (Hel b Hbm)) (unstrained_unyielded _ _ _ rest_unstrained) Hax0 Hfc xs xs false a0 g0 (length ns) rest_len (or_introl Hl0) He0 HU0) as Z0.
        unfold F0, f_ext. rewrite He0. cbn [bind]. destruct (like_value c xs j rest_len Hj' xs rest_len) as [xj Ex]. rewrite Ex. cbn [bind value].
        destruct (residual_formula c ms xs xs false (set_j j an) _ _ Htr Hsz Hld rest_len He0) as (_ & L & _). cbn [a_DOF1 set_j] in L.
        rewrite app_nth1 by (rewrite map_length; lia). rewrite (nth_indep _ 0 (fopp 0)) by (rewrite map_length; lia). rewrite map_nth, Z0. numR. ring. }
      set (y0 := free_part v ++ [1]). assert (Ly0 : length y0 = n) by (unfold y0; rewrite app_length, free_length; cbn; lia).
      pose proof (proj2 (linear_rows v _ (free_length v) (free_spreads v V1)) V2) as Ry0. fold y0 in Ry0.
      assert (Elast0 : nth (c_ndof1 c) y0 0 = 1) by (unfold y0; rewrite app_nth2, free_length, Nat.sub_diag by (rewrite free_length; lia); reflexivity).
      set (mu := nth p y0 0).
      assert (Hmu : mu <> 0).
      { intros E. cut (nth (c_ndof1 c) y0 0 = 0); [lra|]. apply (rest_ns y0 Ly0); [|cbn [ctx_of c_ndof1]; lia]. intros i Hi. destruct (Nat.eq_dec i (c_ndof1 c)) as [->|Hne].
        - rewrite (control_row c ms an j xs Htr Hsz Hld Hpr Hf0 rest_len Hj' a2 Km HK y0 Ly0). exact E.
        - apply Ry0. cbn [ctx_of c_ndof1] in *. lia. }
      set (y := map (Rmult (/ mu)) y0). assert (Ly : length y = n) by (unfold y; rewrite map_length; exact Ly0).
      assert (Ey : forall i, nth i y 0 = / mu * nth i y0 0) by (intros i; unfold y; rewrite <- (map_nth (Rmult (/ mu))), Rmult_0_r; reflexivity).
      assert (Ry : forall i, (i < c_ndof1 c)%nat -> row_times Km y i = 0).
      { intros i Hi. specialize (Ry0 i Hi). rewrite (row_times_len _ _ _ n Ly0) in Ry0. rewrite (row_times_len _ _ _ n Ly).
        rewrite (rsum_ext _ (fun k => / mu * (ent Km i k * nth k y0 0))) by (intros k _; rewrite Ey; ring). rewrite rsum_scal, Ry0. ring. }
      assert (Hyp : nth p y 0 = 1) by (rewrite Ey; fold mu; field; exact Hmu).
      destruct (bounded_some y0) as (B & HB0 & HB).
      destruct (approx c ms an j solve xs Htr Hsz Hld Hpr Hf0 rest_len Hj' Hsol a2 Km HK Hreg rest_ns H0 y Ly Ry Hyp) as (C0 & HC0 & Happ).
      destruct grip_ge as [HG1 HG]. set (G := grip) in *.
      set (eps' := eps / (2 * G * (1 + B))). assert (HGB : 0 < G * (1 + B)) by nra. assert (He' : 0 < eps') by (apply Rdiv_lt_0_compat; lra). assert (HGe : G * (eps' * (1 + B)) = eps / 2) by (unfold eps'; field; lra).
      set (tau' := Rmin tau (eps' / (2 * C0))).
      assert (Hq : 0 < eps' / (2 * C0)) by (apply Rdiv_lt_0_compat; lra).
      assert (Ht' : 0 < tau' <= tau) by (split; [apply Rmin_pos; lra|apply Rmin_l]).
      assert (Ht2 : C0 * tau' <= eps' / 2).
      { assert (tau' <= eps' / (2 * C0)) by apply Rmin_r. apply (Rmult_le_compat_l C0) in H; [|lra]. replace (C0 * (eps' / (2 * C0))) with (eps' / 2) in H by (field; lra). exact H. }
      destruct (small_run_full argsortZ argsortF solve m ns ms bs fs m1 u1 nh eh fh j HA Hsort Hd ltac:(intros b Hbm; apply Hel, Hbm) Hb Eu En Ee Ef Hn Hj Hsol
        an a2 Km tau' HR rest_ns ltac:(lra)) as (eta0 & C & Heta0 & HC & Hrun).
      set (e := eps' / (2 * C0 * C)). assert (HC0C : 0 < C0 * C) by (apply Rmult_lt_0_compat; assumption).
      assert (Hee : 0 < e) by (apply Rdiv_lt_0_compat; nra). assert (HeC : C0 * (e * C) = eps' / 2) by (unfold e; field; nra).
      destruct (Happ e Hee) as (r & Hr & Hnear).
      assert (HCC : 0 < C * C) by nra.
      set (eta := Rmin (Rmin eta0 (eta0 / C)) (Rmin (r / C) (Rmin (1 / (G * C)) (eps / (2 * G * (C * C)))))).
      assert (Y1 : eta <= eta0) by (eapply Rle_trans; [apply Rmin_l|apply Rmin_l]).
      assert (Y2 : C * eta <= eta0).
      { assert (H : eta <= eta0 / C) by (eapply Rle_trans; [apply Rmin_l|apply Rmin_r]). apply (Rmult_le_compat_l C) in H; [|lra]. replace (C * (eta0 / C)) with eta0 in H by (field; lra). exact H. }
      assert (Y3 : C * eta <= r).
      { assert (H : eta <= r / C) by (eapply Rle_trans; [apply Rmin_r|apply Rmin_l]). apply (Rmult_le_compat_l C) in H; [|lra]. replace (C * (r / C)) with r in H by (field; lra). exact H. }
      assert (Y4 : G * (C * eta) <= 1).
      { assert (H : eta <= 1 / (G * C)) by (eapply Rle_trans; [apply Rmin_r|]; eapply Rle_trans; [apply Rmin_r|apply Rmin_l]).
        apply (Rmult_le_compat_l (G * C)) in H; [|nra]. replace (G * C * (1 / (G * C))) with 1 in H by (field; lra). lra. }
      assert (Y5 : G * (C * C * eta) <= eps / 2).
      { assert (H : eta <= eps / (2 * G * (C * C))) by (eapply Rle_trans; [apply Rmin_r|]; eapply Rle_trans; [apply Rmin_r|apply Rmin_r]).
        apply (Rmult_le_compat_l (G * (C * C))) in H; [|nra]. replace (G * (C * C) * (eps / (2 * G * (C * C)))) with (eps / 2) in H by (field; lra). lra. }
      assert (Y0 : 0 < eta) by (unfold eta; repeat apply Rmin_pos; try apply Rdiv_lt_0_compat; nra).
      exists eta. split; [exact Y0|]. intros fz xz. destruct (Hrun fz xz) as [N HN]. exists N. intros st k fuel d Hsc Hfz Hxz HNf Hstv Hdd Hkd.
      specialize (HN st k fuel). cbv zeta in HN. fold d in HN. clearbody d.
      destruct HN as (m2 & out & lg & R1 & R2 & R3 & R4 & R5).
      { destruct Hsc as (Q1 & Q2 & Q3 & Q4 & Q5). unfold small_control. repeat (split; [assumption || lra|]). exact Q5. }
      { exact Hfz. } { exact Hxz. } { exact HNf. } { exact Hstv. } { lra. } { apply (Rmult_le_compat_l C) in Hkd; [|lra]. lra. }
      exists m2, out, lg. split; [exact R1|]. split; [exact R3|]. split; [exact R4|]. clear R1 R2 R3.
      intros q x a Hqx. destruct (R5 q x a Hqx) as (X1 & X2 & X3 & X4 & h & _ & X5 & _ & X6).
      assert (Hqk : (S q <= k)%nat) by (rewrite <- R4; apply nth_error_Some; congruence). apply le_INR in Hqk.
      assert (HS1 : 1 <= INR (S q)) by (rewrite S_INR; pose proof (pos_INR q); lra).
      set (Q := INR (S q)) in *. set (s := Q * (C * d)) in *.
      assert (HQd : Q * d <= eta) by nra.
      assert (Hs : 0 <= s <= C * eta) by (unfold s; replace (Q * (C * d)) with (C * (Q * d)) by ring; split; [apply Rmult_le_pos; nra|apply Rmult_le_compat_l; lra]).
      assert (Elast : nth (c_ndof1 c) x 0 = a_lpf a).
      { rewrite X1 in X2. rewrite app_length in X2. cbn [length] in X2. rewrite X1. rewrite app_nth2 by (cbn [ctx_of c_ndof1]; lia).
        replace (c_ndof1 c - length (a_Ured a))%nat with 0%nat by (cbn [ctx_of c_ndof1]; lia). reflexivity. }
      split; [exact X1|]. split; [exact X2|]. split; [eapply Rle_trans; [exact X4|]; apply Rmult_le_compat_l; [lra|]; apply Rmult_le_compat_r; lra|].
      assert (Hwx : within n s x xs).
      { split; [exact X2|]. intros i Hi. rewrite nth_repeat, Rminus_0_r. apply X3, Hi. }
      set (D0 := C0 * (tau' * d + e * s)). set (D := D0 * (1 + B)).
      assert (Hap0 : forall i, (i < n)%nat -> Rabs (nth i x 0 - nth p x 0 * (/ mu * nth i y0 0)) <= D0).
      { intros i Hi. pose proof (Hnear x s (tau' * d) Hwx ltac:(lra) ltac:(nra)) as A.
        replace (nth i x 0 - nth p x 0 * (/ mu * nth i y0 0)) with (nth i x 0 - nth i xs 0 - (nth p x 0 - nth p xs 0) * nth i y 0) by (rewrite !nth_repeat, Ey; ring).
        apply A; [|exact Hi]. intros i' Hi'. rewrite (recorded_F0 x h a X2 X6 i' Hi'), Rabs_Ropp. apply X5. exact Hi'. }
      assert (Hap : forall i, (i < n)%nat -> Rabs (nth i x 0 - a_lpf a * nth i y0 0) <= D).
      { intros i Hi. pose proof (Hap0 i Hi) as A1. pose proof (Hap0 (c_ndof1 c) ltac:(cbn [ctx_of c_ndof1]; lia)) as A2. rewrite Elast, Elast0 in A2.
        replace (nth i x 0 - a_lpf a * nth i y0 0) with ((nth i x 0 - nth p x 0 * (/ mu * nth i y0 0)) + - ((a_lpf a - nth p x 0 * (/ mu * 1)) * nth i y0 0)) by ring.
        eapply Rle_trans; [apply Rabs_triang|]. rewrite Rabs_Ropp, Rabs_mult. unfold D. replace (D0 * (1 + B)) with (D0 + D0 * B) by ring. apply Rplus_le_compat; [exact A1|].
        apply Rmult_le_compat; try apply Rabs_pos; [exact A2|apply HB]. }
      assert (HDe0 : D0 <= eps' * (Q * d)).
      { unfold D0, s. replace (C0 * (tau' * d + e * (Q * (C * d)))) with (C0 * tau' * d + C0 * (e * C) * (Q * d)) by ring. rewrite HeC.
        assert (C0 * tau' * d <= eps' / 2 * (Q * d)) by (assert (0 < Q * d) by nra; assert (d <= Q * d) by nra; assert (0 < C0 * tau') by nra; nra). lra. }
      assert (HDe : D <= eps' * (1 + B) * (Q * d)) by (unfold D; apply (Rmult_le_compat_r (1 + B)) in HDe0; lra).
      assert (HDpos : 0 <= D) by (unfold D, D0; repeat apply Rmult_le_pos; try lra; nra).
      pose proof (recorded_spread x h a X2 X6) as [Sp1 Sp2]. destruct (snoc_split x _ X2) as [Esn Lsn].
      assert (Node : forall l d3, In l (map fst ns) -> (d3 < 3)%nat ->
        Rabs (vget (row_of (n_labels nh) (a_U a) vzero l) d3) <= s /\ Rabs (vget (row_of (n_labels nh) (a_U a) vzero l) d3 - a_lpf a * vget (v l) d3) <= D).
      { intros l d3 Hl Hd3. assert (Hl' : In l (n_labels nh)) by (apply T1, Hl). destruct (In_nth_error _ _ Hl') as [i Hi]. destruct (div3 i d3 Hd3) as [D1 D2].
        destruct (in_dec Nat.eq_dec (3 * i + d3)%nat (a_DOF1 an)) as [Hin|Hin].
        - destruct (In_nth_error _ _ Hin) as [t Hti]. assert (Htn : (t < c_ndof1 c)%nat) by (rewrite Hnn; apply nth_error_Some; congruence).
          pose proof (Sp1 t (3 * i + d3)%nat l Hti) as S. rewrite D1, D2 in S. specialize (S Hi). rewrite S.
          assert (Ex : nth t (removelast x) 0 = nth t x 0) by (rewrite Esn at 2; rewrite app_nth1 by (rewrite Lsn; exact Htn); reflexivity). rewrite Ex.
          pose proof (proj1 (free_spreads v V1) t (3 * i + d3)%nat l Hti) as Sv. rewrite D1, D2 in Sv. specialize (Sv Hi). rewrite Sv.
          assert (Eyt : nth t (free_part v) 0 = nth t y0 0) by (unfold y0; rewrite app_nth1 by (rewrite free_length; exact Htn); reflexivity). rewrite Eyt.
          split; [apply X3; cbn [ctx_of c_ndof1] in Htn; lia|apply Hap; cbn [ctx_of c_ndof1] in Htn; lia].
        - pose proof (Sp2 (3 * i + d3)%nat l) as S. rewrite D1, D2 in S. rewrite (S Hi Hin).
          pose proof (proj2 (free_spreads v V1) (3 * i + d3)%nat l) as Sv. rewrite D1, D2 in Sv. rewrite (Sv Hi Hin).
          rewrite Rmult_0_r, Rminus_0_r, Rabs_R0. split; lra. }
      split.
      - intros l d3 Hl Hd3. eapply Rle_trans; [apply (Node l d3 Hl Hd3)|]. eapply Rle_trans; [exact HDe|]. apply Rmult_le_compat_r; [nra|]. assert (0 < eps' * (1 + B)) by nra. nra.
      - intros i b Hi. pose proof (nth_error_In _ _ Hi) as Hbm. exists (EA b * (stretch_of c (a_U a) b - 1)).
        destruct (HG b Hbm) as (HL & B1 & B2 & B3). cbv zeta in *. destruct (Hel b Hbm) as [_ HEA].
        set (L := len (axis0 c b)) in *. assert (P1 : 0 < EA b / L) by (apply Rdiv_lt_0_compat; assumption). assert (P2 : 0 < EA b / L / L) by (apply Rdiv_lt_0_compat; assumption).
        assert (H8 : 8 * s <= L).
        { assert (G * s <= 1) by nra. assert (8 * s <= G * L * s) by nra. nra. }
        split.
        { apply (recorded_force x h a i b X2 X6 Hi). intros El. pose proof (strain_near (a_U a) s b Hbm (proj1 Hs) H8 (fun l d3 Hl Hd3 => proj1 (Node l d3 Hl Hd3))) as Sn. fold L in Sn.
          destruct (Hel b Hbm) as [[_ Hpl] _]. rewrite El in Hpl. destruct Hpl as (E0 & K0 & Sy & rest & Em & HE0 & _ & HSy). rewrite Em in *. cbn [nth] in *.
          rewrite Rabs_mult, (Rabs_pos_eq E0) by lra. rewrite Rabs_pos_eq in B3 by (apply Rlt_le; repeat apply Rdiv_lt_0_compat; assumption).
          apply Rle_trans with (E0 * (9 * s / L)); [apply Rmult_le_compat_l; lra|]. replace (E0 * (9 * s / L)) with (9 * (E0 / L / Sy) * s * Sy) by (field; lra).
          assert (Gs : G * s <= 1) by nra. assert (Gy : 9 * (E0 / L / Sy) * s <= 1) by nra. apply (Rmult_le_compat_r Sy) in Gy; lra. }
        pose proof (force_near (a_U a) v (a_lpf a) s D b Hbm (proj1 Hs) H8 (fun l d3 Hl Hd3 => proj1 (Node l d3 Hl Hd3)) (fun l d3 Hl Hd3 => proj2 (Node l d3 Hl Hd3))) as Fn.
        eapply Rle_trans; [exact Fn|]. fold L. clear Fn.
        replace (EA b / L * (24 * s ^ 2 / L + 6 * D)) with (24 * (EA b / L / L) * (s * s) + 6 * (EA b / L) * D) by (field; lra).
        assert (Bs : s * s <= C * C * eta * (Q * d)).
        { unfold s. assert (0 < Q * d) by nra. replace (Q * (C * d) * (Q * (C * d))) with (C * C * (Q * d) * (Q * d)) by ring. apply Rmult_le_compat_r; [lra|]. apply Rmult_le_compat_l; lra. }
        assert (W1 : 24 * (EA b / L / L) * (s * s) <= eps / 2 * (Q * d)).
        { assert (Hw : 0 <= C * C * eta * (Q * d)) by (apply Rmult_le_pos; [|nra]; nra).
          apply Rle_trans with (G * (C * C * eta * (Q * d))); [apply Rmult_le_compat; try nra|].
          replace (G * (C * C * eta * (Q * d))) with (G * (C * C * eta) * (Q * d)) by ring. apply Rmult_le_compat_r; [nra|exact Y5]. }
        assert (W2 : 6 * (EA b / L) * D <= eps / 2 * (Q * d)).
        { apply Rle_trans with (G * (eps' * (1 + B) * (Q * d))); [apply Rmult_le_compat; try lra|]. replace (G * (eps' * (1 + B) * (Q * d))) with (G * (eps' * (1 + B)) * (Q * d)) by ring. rewrite HGe. lra. }
        lra.
    Qed.
  End AtRest.
End Fresh.

(** ** Control by a component that moves *)
Section Control.
  Variables (argsortZ : list Z -> list nat).
  Variables (m : model R) (ns : list (Z * v3 R)) (ms : list (member R)) (bs : list (Z * list Z)) (fs : list (Z * list R)).
  Variables (m1 : model R) (u1 : built R) (nh : nodeH R) (eh : elemH R) (fh : forceH R) (j jn : Z).
  Notation c := (ctx_of m1 u1 nh eh).
  Notation n := (S (u_ndof1 u1)).
  Notation p := (Z.to_nat (Z.abs j - 1)).
  Hypotheses (HA : argsort_ok argsortZ) (Hd : described m ns ms bs fs) (Hel : forall b, In b ms -> elastic_at_first b /\ 0 < EA b)
    (Hax : forall b p q, In b ms -> In (mb_a b, p) ns -> In (mb_b b, q) ns -> p <> q)
    (Hb : build argsortZ m = Ok m1) (Eu : m_built m1 = Some u1) (En : m_nodes m1 = Some nh) (Ee : m_elems m1 = Some eh) (Ef : m_forces m1 = Some fh)
    (Hwd : forall r, In r (e_rows fh) -> (3 <= length r)%nat)
    (Hn : (1 <= u_ndof1 u1)%nat) (Hj : (1 <= Z.abs j <= Z.of_nat n)%Z) (Hjn : Z.abs jn = Z.of_nat n).
  Variables (an a2 a0 b2 : analysis R) (Km Kn : list (list R)).
  Hypotheses (HR : at_rest ns ms m1 u1 nh eh fh j an a2 Km) (HRn : at_rest ns ms m1 u1 nh eh fh jn a0 b2 Kn) (Hns : nonsingular n Kn).

  Lemma moving_regular v : linear_solution ns ms bs fs v -> nth p (free_part m1 u1 nh eh an v ++ [1]) 0 <> 0 -> nonsingular n Km.
  Proof.
    intros [V1 V2] Hmu. pose proof HR as (Htr & Hsz & Hld & Hpr & Hf0 & _ & _ & HU2 & _ & _ & HK & _ & _ & Hset).
    pose proof HRn as (_ & _ & _ & _ & _ & _ & _ & HUn & _ & _ & HKn & _ & _ & Hsetn). rewrite Hset in Hsetn. injection Hsetn as <-.
    assert (Hj' : (1 <= Z.abs j <= Z.of_nat (S (c_ndof1 c)))%Z) by (cbn [ctx_of c_ndof1]; lia). assert (Hjn' : (1 <= Z.abs jn <= Z.of_nat (S (c_ndof1 c)))%Z) by (cbn [ctx_of c_ndof1]; lia).
    pose proof Hsz as (_ & _ & _ & _ & _ & _ & _ & _ & _ & _ & Hnn & _).
    assert (Lf : length (a_f0red an) = c_ndof1 c) by (apply gather_length in Hf0; rewrite Hf0; symmetry; exact Hnn).
    assert (L0 : length (repeat 0 n) = S (c_ndof1 c)) by apply repeat_length.
    destruct (dfdx_entry c ms j (repeat 0 n) an a2 Km Htr Hsz L0 Lf ltac:(lia) HK) as [_ HE].
    destruct (dfdx_entry c ms jn (repeat 0 n) an b2 Kn Htr Hsz L0 Lf ltac:(lia) HKn) as [_ HEn].
    assert (Erow : forall i z, (i < c_ndof1 c)%nat -> length z = n -> row_times Kn z i = row_times Km z i).
    { intros i z Hi Lz. rewrite !(row_times_len _ _ _ n Lz). apply rsum_ext. intros k Hk. apply in_seq in Hk. cbn [ctx_of c_ndof1] in *. rewrite HE, HEn by lia. f_equal.
      unfold J_entry. rewrite HU2, HUn. destruct (Nat.eqb_spec i (c_ndof1 c)); [cbn [ctx_of c_ndof1] in *; lia|]. reflexivity. }
    set (y0 := free_part m1 u1 nh eh an v ++ [1]) in *.
    pose proof (free_length ns ms m1 u1 nh eh fh j an a2 Km HR v) as Lfree. cbn [ctx_of c_ndof1] in Lfree.
    assert (Ly0 : length y0 = n) by (unfold y0; rewrite app_length, Lfree; cbn; lia).
    pose proof (proj2 (linear_rows argsortZ m ns ms bs fs m1 u1 nh eh fh j HA Hd Hel Hb Eu En Ef Hwd Hn Hj an a2 Km HR v _ Lfree
      (free_spreads argsortZ m ns ms bs fs m1 u1 nh eh fh j HA Hd Hb Eu En Ef Hwd Hn Hj an a2 Km HR v V1)) V2) as Ry0. fold y0 in Ry0.
    assert (Elast0 : nth (c_ndof1 c) y0 0 = 1) by (cbn [ctx_of c_ndof1]; unfold y0; rewrite app_nth2, Lfree, Nat.sub_diag by lia; reflexivity).
    intros z Lz Hz. set (t := nth (c_ndof1 c) z 0). set (w := map (fun k => nth k z 0 - t * nth k y0 0) (seq 0 n)).
    assert (Lw : length w = n) by (unfold w; rewrite map_length, seq_length; reflexivity).
    assert (Hw : forall k, (k < n)%nat -> nth k w 0 = nth k z 0 - t * nth k y0 0) by (intros k Hk; apply (nth_map_seq (fun k => nth k z 0 - t * nth k y0 0)); exact Hk).
    assert (W0 : forall k, (k < n)%nat -> nth k w 0 = 0).
    { apply (Hns w Lw). intros i Hi. destruct (Nat.eq_dec i (c_ndof1 c)) as [->|Hne].
      - rewrite (rest_control ns ms m1 u1 nh eh fh jn Hn ltac:(lia) an b2 Kn HRn w Hjn Lw), Hw by (cbn [ctx_of c_ndof1]; lia). rewrite Elast0. unfold t. ring.
      - assert (Hi' : (i < c_ndof1 c)%nat) by (cbn [ctx_of c_ndof1] in *; lia). rewrite Erow by assumption.
        rewrite (row_times_len _ _ _ n Lw), (rsum_ext _ (fun k => ent Km i k * nth k z 0 - t * (ent Km i k * nth k y0 0))).
        2:{ intros k Hk. apply in_seq in Hk. rewrite Hw by lia. ring. }
        rewrite rsum_minus, rsum_scal, <- (row_times_len Km z i n Lz), <- (row_times_len Km y0 i n Ly0), (Ry0 i Hi'), Hz by exact Hi. ring. }
    assert (Zp : nth p z 0 = 0).
    { rewrite <- (control_row c ms an j (repeat 0 n) Htr Hsz Hld Hpr Hf0 L0 Hj' a2 Km HK z Lz). apply Hz. cbn [ctx_of c_ndof1]. lia. }
    assert (T0 : t = 0).
    { pose proof (W0 p ltac:(lia)) as G. rewrite Hw, Zp in G by lia. assert (G' : t * nth p y0 0 = 0) by lra. apply Rmult_integral in G'. destruct G' as [G'|G']; [exact G'|contradiction]. }
    intros k Hk. pose proof (W0 k Hk) as G. rewrite Hw, T0 in G by exact Hk. lra.
  Qed.
End Control.
