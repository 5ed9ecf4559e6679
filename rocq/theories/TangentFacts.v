(** * The stiffness as derivative of the residual (R) *)
From Coq Require Import List ZArith Bool Arith Lia Reals Lra Permutation.
From Coquelicot Require Import Coquelicot.
Import ListNotations.
From Verif Require Import Num NumR Vec Handlers Material Analysis Truss Equil Solver ListFacts SpecMaterial SpecMech SpecMechR MaterialFacts EquilFacts MechFacts StiffFacts.
Local Open Scope R_scope.

(** ** Material *)
Definition sig_of (u : umat_id) (mat : list R) (row : option (list R)) (e : R) : R :=
  match umat u e 0 mat row with Ok (s, _, _) => s | _ => 0 end.

Lemma umat_pl_pad E K Sy rest y p sr e de :
  umat_elplast_iso e de (E :: K :: Sy :: rest) (Some (y :: p :: sr)) =
  match umat_elplast_iso e de [E; K; Sy] (Some [y; p]) with
  | Ok (s, t, Some [y'; p']) => Ok (s, t, Some (y' :: p' :: sr))
  | x => x
  end.
Proof.
  unfold umat_elplast_iso, item. cbn [nth_error bind].
  destruct (fleb _ _); reflexivity.
Qed.

Lemma umat_pl_shape e de mat row x : umat_elplast_iso (F:=R) e de mat row = Ok x ->
  exists E K Sy rest y p sr, mat = E :: K :: Sy :: rest /\ row = Some (y :: p :: sr).
Proof.
  unfold umat_elplast_iso, item. intros H.
  destruct mat as [|E [|K [|Sy rest]]]; try discriminate. cbn [nth_error bind] in H.
  destruct row as [[|y [|p sr]]|]; try discriminate. repeat eexists.
Qed.

Lemma umat_total u e de mat row x : umat (F:=R) u e de mat row = Ok x ->
  forall e' de', exists s t st, umat u e' de' mat row = Ok (s, t, st).
Proof.
  destruct u; cbn [umat]; intros H e' de'.
  - unfold umat_el, item in *. destruct mat as [|E rest]; [discriminate|]. cbn. repeat eexists.
  - destruct (umat_pl_shape _ _ _ _ _ H) as (E & K & Sy & rest & y & p & sr & -> & ->).
    rewrite umat_pl_pad. rewrite umat_pl_eq. cbn zeta. destruct (Rle_dec _ 0); repeat eexists.
Qed.

Lemma sig_of_ok u e de mat row s t st : umat (F:=R) u e de mat row = Ok (s, t, st) ->
  sig_of u mat row e = s.
Proof. intros H. unfold sig_of. rewrite (umat_de u e 0 de), H. reflexivity. Qed.

Lemma umat_derive u mat row e de s t st :
  umat (F:=R) u e de mat row = Ok (s, t, st) -> smooth_at u mat row e ->
  is_derive (sig_of u mat row) e t.
Proof.
  intros H Hs. destruct u; cbn [umat] in *.
  - unfold umat_el, item in H. destruct mat as [|E rest]; [discriminate|]. cbn in H. injection H as <- <- <-.
    unfold sig_of. cbn. auto_derive; auto. ring.
  - destruct (umat_pl_shape _ _ _ _ _ H) as (E & K & Sy & rest & y & p & sr & -> & ->).
    cbn [smooth_at] in Hs. destruct Hs as (HE & HK & HY & Hne). apply is_derive_Reals.
    pose (sig := sig_of UmatPl (E :: K :: Sy :: rest) (Some (y :: p :: sr))).
    pose (tan := fun e => match umat_elplast_iso e 0 [E; K; Sy] (Some [y; p]) with Ok (_, t, _) => t | _ => 0 end).
    assert (Ht : tan e = t).
    { unfold tan. change (umat_elplast_iso e 0 [E; K; Sy] (Some [y; p])) with (umat_elplast_iso e de [E; K; Sy] (Some [y; p])).
      rewrite umat_pl_pad in H. rewrite umat_pl_eq in H |- *. cbn zeta in *.
      destruct (Rle_dec _ 0); injection H as <- <- <-; reflexivity. }
    rewrite <- Ht. apply (umat_pl_derivative E K Sy y p 0 sig tan); auto.
    intros e'. unfold sig, tan, sig_of. cbn [umat]. rewrite (umat_pl_pad E K Sy rest y p sr).
    destruct (umat_pl_total E K Sy e' 0 y p) as (s' & t' & y' & p' & E').
    rewrite E'. eexists. reflexivity.
Qed.

(** ** One member *)
Lemma len_pos v : len v <> 0 -> 0 < vx v * vx v + vy v * vy v + vz v * vz v.
Proof.
  intros H. unfold len in H. destruct (Rle_lt_dec (vx v * vx v + vy v * vy v + vz v * vz v) 0) as [Hl|]; auto.
  exfalso. apply H. apply sqrt_neg_0. exact Hl.
Qed.

Lemma len_derive a w t0 : len a <> 0 ->
  is_derive (fun t => len (vadd a (vscale (t - t0) w))) t0 (vdot a w / len a).
Proof.
  intros Ha. pose proof (len_pos _ Ha) as Hp. destruct a as [a1 a2 a3], w as [w1 w2 w3].
  unfold len, vdot, vadd, vscale, vmap, vmap2 in *. cbn [vx vy vz] in *. numR.
  auto_derive.
  - replace (t0 + - t0) with 0 by ring. rewrite !Rmult_0_l, !Rplus_0_r. lra.
  - replace (t0 + - t0) with 0 by ring. rewrite !Rmult_0_l, !Rplus_0_r.
    match goal with |- @eq _ ?a ?b => change (@eq R a b) end.
    assert (sqrt (a1 * a1 + a2 * a2 + a3 * a3) <> 0) by exact Ha. field. auto.
Qed.

Definition member_vec (sig : R -> R) (A L : R) (a : v3 R) : v3 R :=
  vscale (A * sig (len a / L - 1)) (vscale (/ len a) a).

Lemma member_derive sig t A L a w t0 cp : len a <> 0 -> L <> 0 ->
  is_derive sig (len a / L - 1) t -> (cp < 3)%nat ->
  is_derive (fun x => vget (member_vec sig A L (vadd a (vscale (x - t0) w))) cp) t0
    (vget (mvec (madd (mscale (t * A / L) (vouter (vscale (/ len a) a) (vscale (/ len a) a)))
                      (mscale (A * sig (len a / L - 1) / len a)
                         (msub meye (vouter (vscale (/ len a) a) (vscale (/ len a) a))))) w) cp).
Proof.
  intros Ha HL Hs Hc. pose proof (len_derive a w t0 Ha) as Hl.
  set (ell := fun x => len (vadd a (vscale (x - t0) w))) in *.
  assert (E0 : ell t0 = len a).
  { unfold ell. f_equal. replace (t0 - t0) with 0 by ring. veq. }
  assert (Hsig : is_derive (fun x => sig (ell x / L - 1)) t0 (vdot a w / len a / L * t)).
  { evar_last.
    - apply (is_derive_comp sig (fun x => ell x / L - 1) t0).
      + rewrite E0. exact Hs.
      + apply (is_derive_minus (fun x => ell x / L) (fun _ => 1)).
        * apply (is_derive_ext (fun x => scal (/ L) (ell x))).
          { intros x. unfold scal. cbn. unfold mult. cbn. unfold Rdiv. ring. }
          apply is_derive_scal. exact Hl.
        * apply is_derive_const.
    - unfold scal, minus, plus, opp, zero. cbn. unfold mult. cbn.
      match goal with |- @eq _ ?a ?b => change (@eq R a b) end. unfold Rdiv. ring. }
  assert (Hcomp : is_derive (fun x => vget a cp + (x - t0) * vget w cp) t0 (vget w cp)).
  { auto_derive; auto. match goal with |- @eq _ ?a ?b => change (@eq R a b) end. ring. }
  assert (Hinv : is_derive (fun x => / ell x) t0 (- (vdot a w / len a) / (len a * len a))).
  { evar_last.
    - apply is_derive_inv; [exact Hl|]. rewrite E0. exact Ha.
    - rewrite E0. match goal with |- @eq _ ?a ?b => change (@eq R a b) end. unfold pow. field. exact Ha. }
  apply (is_derive_ext (fun x => A * sig (ell x / L - 1) * (/ ell x * (vget a cp + (x - t0) * vget w cp)))).
  { intros x. unfold member_vec. fold (ell x).
    destruct cp as [|[|[|]]]; [| | |lia]; destruct a as [a1 a2 a3], w as [w1 w2 w3]; unfold vscale, vadd, vmap, vmap2; cbn [vget vx vy vz]; numR; reflexivity. }
  evar_last.
  - apply (is_derive_mult (fun x => A * sig (ell x / L - 1)) (fun x => / ell x * (vget a cp + (x - t0) * vget w cp))).
    + apply (is_derive_scal (fun x => sig (ell x / L - 1)) t0 A). exact Hsig.
    + apply (is_derive_mult (fun x => / ell x) (fun x => vget a cp + (x - t0) * vget w cp)); [exact Hinv|exact Hcomp|].
      intros; apply Rmult_comm.
    + intros; apply Rmult_comm.
  - unfold plus, mult. cbn. rewrite E0.
    generalize (sig (len a / L - 1)) as s. intros s. generalize dependent (len a). intros ln.
    destruct a as [a1 a2 a3], w as [w1 w2 w3].
    unfold mvec, madd, mscale, msub, meye, vouter, vscale, vadd, vsub, vmap, vmap2, vdot in *. cbn [vget vx vy vz] in *. numR.
    intros.
    match goal with |- @eq _ ?a ?b => change (@eq R a b) end.
    destruct cp as [|[|[|]]]; [| | |lia]; cbn [vget vx vy vz]; field; auto.
Qed.

(** ** Sums *)
Lemma rsum_derive {X} (f : X -> R -> R) (d : X -> R) xs t0 :
  (forall x, In x xs -> is_derive (f x) t0 (d x)) ->
  is_derive (fun t => rsum (map (fun x => f x t) xs)) t0 (rsum (map d xs)).
Proof.
  induction xs as [|x xs IH]; intros H; cbn [map rsum fold_right].
  - apply (is_derive_const (K:=R_AbsRing) (V:=R_NormedModule) 0).
  - apply (is_derive_plus (f x) (fun t => rsum (map (fun x => f x t) xs))).
    + apply H. left. reflexivity.
    + apply IH. intros; apply H; right; auto.
Qed.

Lemma vget_vadd (a b : v3 R) d : vget (vadd a b) d = vget a d + vget b d.
Proof. destruct d as [|[|]]; reflexivity. Qed.
Lemma vget_vscale s (a : v3 R) d : vget (vscale s a) d = s * vget a d.
Proof. destruct d as [|[|]]; reflexivity. Qed.
Lemma vget_madd (a b : m3 R) d : vget (madd a b) d = vadd (vget a d) (vget b d).
Proof. destruct d as [|[|]]; reflexivity. Qed.
Lemma vget_mscale s (a : m3 R) d : vget (mscale s a) d = vscale s (vget a d).
Proof. destruct d as [|[|]]; reflexivity. Qed.
Lemma vget_vzero d : vget (vzero (F:=R)) d = 0.
Proof. destruct d as [|[|]]; reflexivity. Qed.
Lemma vget_mzero d : vget (mzero (F:=R)) d = vzero.
Proof. destruct d as [|[|]]; reflexivity. Qed.

Lemma vget_vsum l d : vget (vsum l) d = rsum (map (fun v => vget v d) l).
Proof.
  induction l as [|v l IH]; cbn [vsum rsum map fold_right]; [apply vget_vzero|].
  fold (vsum l). rewrite vget_vadd, IH. reflexivity.
Qed.

Lemma vget_msum l p q : vget (vget (msum l) p) q = rsum (map (fun M => vget (vget M p) q) l).
Proof.
  induction l as [|v l IH]; cbn [msum rsum map fold_right]; [rewrite vget_mzero; apply vget_vzero|].
  fold (msum l). rewrite vget_madd, vget_vadd, IH. reflexivity.
Qed.

(** ** Residual formula and totality *)
Definition mvec_of c an (U : list (v3 R)) (x : nat * (member R * truss_q (F:=R))) : v3 R :=
  let m := fst (snd x) in
  member_vec (sig_of (mb_law m) (mb_mat m) (state_row c an (fst x))) (hd 0 (mb_geo m))
             (len (axis0 c m)) (axis c U m).

Lemma nth_error_zipk ms (qs : list (truss_q (F:=R))) k : length qs = length ms ->
  nth_error (zipk 0 ms qs) k =
  match nth_error ms k, nth_error qs k with Some m, Some q => Some (k, (m, q)) | _, _ => None end.
Proof.
  intros Hl. unfold zipk. rewrite !nth_error_combine, nth_error_seq.
  destruct (nth_error ms k) as [m|] eqn:E.
  - assert (k < length ms)%nat by (apply nth_error_Some; congruence).
    destruct (Nat.ltb_spec k (length ms)); [|lia]. destruct (nth_error qs k); reflexivity.
  - destruct (Nat.ltb k (length ms)); reflexivity.
Qed.

Lemma force_sum c ms V V0 w an an' g (qs : list (truss_q (F:=R))) l :
  truss_ok c ms -> sizes_ok c ms an -> equilibrium c V V0 w an = Ok (an', g) ->
  length qs = length ms -> In l (c_labels c) ->
  row_of (c_labels c) (a_r an') vzero l
  = vsum (map (fun x => vscale (sg (fst (snd x)) l) (mvec_of c an (a_U an') x)) (zipk 0 ms qs)).
Proof.
  intros Hok Hsz H Hl Hin. destruct (internal_forces _ _ _ _ _ _ _ _ Hok Hsz H) as [A B].
  rewrite B by exact Hin. f_equal. apply nth_error_ext. intros k.
  rewrite !nth_error_map, nth_error_zipk, nth_error_combine by exact Hl.
  destruct (nth_error ms k) as [m|] eqn:Ek; [|reflexivity].
  destruct (A _ _ Ek) as (s & t & st & de & Ar & Hu & HA & _ & _ & Hf). rewrite Hf.
  assert (Hk : (k < length qs)%nat) by (rewrite Hl; apply nth_error_Some; congruence).
  destruct (nth_error qs k) as [q|] eqn:Eq; [|apply nth_error_None in Eq; lia].
  cbn [option_map]. f_equal. unfold pull, mvec_of, member_vec, sg, direction. cbn [fst snd].
  change (len (axis c (a_U an') m) / len (axis0 c m)) with (stretch_of c (a_U an') m).
  rewrite (sig_of_ok _ _ _ _ _ _ _ _ Hu).
  destruct (mb_geo m) as [|A0 geo]; [discriminate|]. injection HA as ->. cbn [hd].
  destruct (Z.eqb l (mb_b m)); [|destruct (Z.eqb l (mb_a m))];
    generalize (axis c (a_U an') m); intros v; generalize (/ len v); intros y; veq.
Qed.

Lemma prepare_U c st V V0 (an an1 : analysis R) u lam n : equil_prepare c st V V0 an = Ok (an1, u, lam) ->
  c_ndof1 c = n ->
  (length V = S n -> scatter (a_U an) (a_DOF1 an) (firstn n V) = Ok (a_U an1) /\ lam = last V 0) /\
  (length V = n -> scatter (a_U an) (a_DOF1 an) V = Ok (a_U an1) /\ lam = a_lpf an /\ u = V).
Proof.
  unfold equil_prepare. intros H Hn. mstep H. mstep H. injection H as <- <- <-. subst n.
  split; intros HV.
  - destruct (Nat.ltb_spec (c_ndof1 c) (length V)); [|lia]. destruct st; cbn in *; auto.
  - destruct (Nat.ltb_spec (c_ndof1 c) (length V)); [lia|]. destruct st; cbn in *; auto.
Qed.

Lemma residual_formula c ms V V0 w an an' gr :
  truss_ok c ms -> sizes_ok c ms an -> loads_ok c an -> length V = S (c_ndof1 c) ->
  equilibrium c V V0 w an = Ok (an', gr) ->
  scatter (a_U an) (a_DOF1 an) (firstn (c_ndof1 c) V) = Ok (a_U an') /\
  length gr = length (a_DOF1 an) /\
  forall i p l, nth_error (a_DOF1 an) i = Some p -> nth_error (c_labels c) (p / 3) = Some l ->
    nth i gr 0 = - vget (row_of (c_labels c) (a_r an') vzero l) (p mod 3)
                 + nth p (concat (a_fconst an)) 0 + last V 0 * nth p (concat (a_forces an)) 0.
Proof.
  intros Hok Hsz [Hl1 Hl2] HV H.
  pose proof (equilibrium_lengths _ _ _ _ _ _ _ _ Hok Hsz H) as (_ & _ & Hr & _).
  destruct (equilibrium_inv _ _ _ _ _ _ _ _ Hok Hsz H) as (an1 & u & lam & qs & g' & Hp & Hq & E & (s1 & E1 & E2) & Hg).
  destruct (prepare_U _ _ _ _ _ _ _ _ _ Hp eq_refl) as [HU _]. destruct (HU HV) as [HU1 ->].
  split.
  { rewrite HU1. f_equal. subst an'. cbn [a_U set_g].
    pose proof (loop_frame StG c u (last V 0) w (zipk 0 ms qs) an1) as Hf. cbn zeta in Hf. destruct Hf as (-> & _). reflexivity. }
  split; [eapply gather_length; eauto|].
  intros i p l Hi Hpl. destruct (gather_nth _ _ _ Hg) as [_ Hn]. destruct (Hn _ _ Hi) as [Hg1 Hg2].
  assert (Hlr : length (map fopp (vflat (a_r an'))) = (3 * length (c_labels c))%nat).
  { rewrite map_length, vflat_length, Hr. reflexivity. }
  assert (L1 : length (map fopp (vflat (a_r an'))) = length (concat (a_fconst an))) by (unfold loads_ok in *; lia).
  apply bcast2_nth in E1; [|exact L1].
  assert (L2 : length s1 = length (map (fmul (last V 0)) (concat (a_forces an)))).
  { rewrite E1, map2_length, L1, Nat.min_id, map_length. lia. }
  apply bcast2_nth in E2; [|exact L2].
  assert (Hp3 : (p < 3 * length (c_labels c))%nat).
  { destruct Hsz as (_ & _ & _ & _ & _ & _ & _ & _ & _ & HD & _). apply HD. eapply nth_error_In; eauto. }
  rewrite E2, E1, !nth_error_map2, !nth_error_map in Hg1.
  rewrite nth_error_vflat in Hg1.
  assert (Hp3' : (p / 3 < length (c_labels c))%nat) by (apply Nat.div_lt_upper_bound; lia).
  rewrite (nth_nth_error (a_r an') (p / 3) vzero) in Hg1 by lia. cbn [option_map] in Hg1.
  rewrite (nth_nth_error (concat (a_fconst an)) p 0) in Hg1 by lia.
  rewrite (nth_nth_error (concat (a_forces an)) p 0) in Hg1 by lia. cbn [option_map] in Hg1.
  rewrite (nth_error_nth _ _ _ Hg1).
  rewrite row_of_nth by (auto; first [apply Hok|eapply nth_error_In; eassumption]).
  rewrite (idx_of_nth _ _ _ (proj1 Hok) Hpl). numR. reflexivity.
Qed.

Lemma member_q_total c (U U0 U' U0' : list (v3 R)) sv m q :
  member_q c U U0 sv m = Ok q -> exists q', member_q c U' U0' sv m = Ok q'.
Proof.
  unfold member_q, truss_quantities. cbn zeta. intros H. mstep H. destruct a as [[s d] sv']. mstep H.
  match goal with |- exists q', bind (umat ?u ?e ?de ?mp ?s) _ = _ =>
    destruct (umat_total _ _ _ _ _ _ Ha e de) as (s1 & t1 & st1 & ->) end.
  cbn [bind]. rewrite Ha0. cbn [bind]. eauto.
Qed.

Lemma quants_total c U U0 U' U0' row k ms (qs : list (truss_q (F:=R))) : quants c U U0 row k ms qs ->
  exists qs', quants c U' U0' row k ms qs'.
Proof.
  induction 1 as [|k m ms q qs Hq Hqs [qs' IH]]; [exists []; constructor|].
  destruct (member_q_total _ _ _ U' U0' _ _ _ Hq) as [q' Hq']. exists (q' :: qs'). constructor; auto.
Qed.

Lemma equilibrium_total c ms V V0 w an U U0 (qs : list (truss_q (F:=R))) :
  truss_ok c ms -> sizes_ok c ms an -> loads_ok c an ->
  length V = S (c_ndof1 c) -> length V0 = S (c_ndof1 c) ->
  quants c U U0 (state_row c an) 0 ms qs ->
  exists an' g, equilibrium c V V0 w an = Ok (an', g).
Proof.
  intros Hok Hsz [Hl1 Hl2] HV HV0 Hq. pose proof Hsz as Hsz0.
  destruct Hsz0 as (HU & HU0 & Hr & _ & _ & _ & _ & _ & HD & HD' & Hn & _).
  assert (Hp : exists an1, equil_prepare c StG V V0 an = Ok (an1, firstn (c_ndof1 c) V, last V 0)).
  { unfold equil_prepare. destruct (Nat.ltb_spec (c_ndof1 c) (length V)); [|lia]. cbn zeta.
    destruct (scatter_total (a_U an) (a_DOF1 an) (firstn (c_ndof1 c) V)) as [x Hx].
    { intros; rewrite HU; auto. } { rewrite firstn_length. lia. }
    destruct (scatter_total (a_U0 an) (a_DOF1 an) (firstn (c_ndof1 c) V0)) as [y Hy].
    { intros; rewrite HU0; auto. } { rewrite firstn_length. lia. }
    cbn [a_U a_U0 a_DOF1 set_r]. rewrite Hx. cbn [bind]. rewrite Hy. cbn [bind]. eauto. }
  destruct Hp as [an1 Hp]. unfold equilibrium. rewrite Hp. cbn [bind].
  pose proof (prepare_sizes _ _ _ _ _ _ _ _ _ Hsz Hp) as Hsz1.
  pose proof (prepare_frame _ _ _ _ _ _ _ _ Hp) as (P1 & P2 & _ & P3 & P4 & _).
  destruct (quants_total _ _ _ (a_U an1) (a_U0 an1) _ _ _ _ Hq) as [qs' Hq'].
  assert (Hq1 : quants c (a_U an1) (a_U0 an1) (state_row c an1) 0 ms qs').
  { eapply quants_ext; [|exact Hq']. intros j _. unfold state_row. rewrite P1. reflexivity. }
  rewrite (elem_loop_ok c ms StG _ _ w an1 qs' Hok Hsz1 Hq1). cbn [bind].
  set (an2 := loop_an StG c (firstn (c_ndof1 c) V) (last V 0) w (zipk 0 ms qs') an1).
  pose proof (loop_frame StG c (firstn (c_ndof1 c) V) (last V 0) w (zipk 0 ms qs') an1) as Hf. cbn zeta in Hf. fold an2 in Hf.
  destruct Hf as (_ & _ & _ & _ & _ & E3 & _ & _ & _ & _ & _ & _ & E4 & E5).
  assert (Hsz2 : sizes_ok c ms an2) by (apply loop_sizes; auto; intros x Hx; eapply zipk_In; eauto).
  destruct Hsz2 as (_ & _ & Hr2 & _).
  assert (Lr : length (map fopp (vflat (a_r an2))) = (3 * length (c_labels c))%nat) by (rewrite map_length, vflat_length, Hr2; reflexivity).
  rewrite bcast2_same by (rewrite E4, P3; lia). cbn [bind].
  rewrite bcast2_same by (rewrite map2_length, Lr, map_length, E4, E5, P3, P4; lia). cbn [bind].
  match goal with |- context [gather ?g ?d] => destruct (gather_ok g d) as [gr Hgr] end.
  { rewrite E3, P2. intros i Hi. rewrite !map2_length, Lr, map_length, E4, E5, P3, P4. specialize (HD' i Hi). lia. }
  rewrite Hgr. cbn [bind]. eauto.
Qed.

(** ** Changing one active component *)
Definition unit3 (d : nat) : v3 R := vset vzero d 1.

Lemma scatter_set (a : list (v3 R)) dof u j q t U0 U1 :
  NoDup dof -> length u = length dof -> nth_error dof j = Some q ->
  scatter a dof u = Ok U0 -> scatter a dof (set_nth j t u) = Ok U1 ->
  (q < 3 * length a)%nat -> U1 = put_flat1 U0 q t /\ nth_error (vflat U0) q = nth_error u j.
Proof.
  intros Hn Hl Hj H0 H1 Hq.
  destruct (scatter_ok _ _ _ _ Hn Hl H0) as (L0 & F0 & G0).
  assert (Hl1 : length (set_nth j t u) = length dof) by (rewrite set_nth_length; exact Hl).
  destruct (scatter_ok _ _ _ _ Hn Hl1 H1) as (L1 & F1 & G1).
  split; [|apply (G0 _ _ Hj)].
  apply vflat_inj. rewrite put_flat1_flat by lia. apply nth_error_ext. intros k.
  rewrite nth_error_set_nth, vflat_length, L0.
  destruct (Nat.ltb_spec q (3 * length a)); [|lia]. rewrite andb_true_r.
  destruct (in_dec Nat.eq_dec k dof) as [Hk|Hk].
  - apply In_nth_error in Hk. destruct Hk as [m Hm]. rewrite (G1 _ _ Hm), nth_error_set_nth.
    destruct (Nat.eqb_spec k q) as [->|Hne].
    + assert (m = j) by (eapply NoDup_nth_inj; eauto). subst m. rewrite Nat.eqb_refl. cbn [andb].
      destruct (Nat.ltb_spec j (length u)) as [|Hge]; auto.
      assert (j < length dof)%nat by (apply nth_error_Some; congruence). lia.
    + destruct (Nat.eqb_spec m j) as [->|]; [congruence|]. cbn [andb]. symmetry. apply G0. exact Hm.
  - rewrite F1, F0 by exact Hk. destruct (Nat.eqb_spec k q) as [->|]; auto.
    exfalso. apply Hk. eapply nth_error_In; eauto.
Qed.

Lemma vset_unit (v : v3 R) d t : (d < 3)%nat -> vset v d t = vadd v (vscale (t - vget v d) (unit3 d)).
Proof.
  intros Hd. unfold unit3. destruct d as [|[|[|]]]; [| | |lia]; destruct v as [v1 v2 v4]; unfold vadd, vscale, vzero, vmap, vmap2, vset; cbn [vget vx vy vz]; numR; f_equal; ring.
Qed.

Lemma axis_set c ms (U0 : list (v3 R)) q t m lq :
  truss_ok c ms -> In m ms -> length U0 = length (c_labels c) ->
  nth_error (c_labels c) (q / 3) = Some lq ->
  axis c (put_flat1 U0 q t) m
  = vadd (axis c U0 m) (vscale (t - nth q (vflat U0) 0) (vscale (sg m lq) (unit3 (q mod 3)))).
Proof.
  intros (Hnd & Hco & _ & _ & Hnodes) Hm HU Hlq. destruct (Hnodes m Hm) as (Ha & Hb & Hab).
  assert (Hq3 : (q / 3 < length U0)%nat) by (rewrite HU; apply nth_error_Some; congruence).
  assert (Hv : nth q (vflat U0) 0 = vget (nth (q / 3) U0 vzero) (q mod 3)).
  { assert (E : nth_error (vflat U0) q = Some (vget (nth (q / 3) U0 vzero) (q mod 3))).
    { rewrite nth_error_vflat, (nth_nth_error _ _ vzero Hq3). reflexivity. }
    apply nth_error_nth with (d := 0) in E. exact E. }
  assert (Hrow : forall l, In l (c_labels c) -> row_of (c_labels c) (put_flat1 U0 q t) vzero l
     = vadd (row_of (c_labels c) U0 vzero l)
         (vscale (t - nth q (vflat U0) 0) (vscale (if Z.eqb l lq then 1 else 0) (unit3 (q mod 3))))).
  { intros l Hl. rewrite !row_of_nth by (auto; rewrite put_flat1_length; auto).
    unfold put_flat1. rewrite (nth_nth_error _ _ vzero Hq3). rewrite nth_set_nth.
    destruct (Nat.ltb_spec (q / 3) (length U0)); [|lia]. rewrite andb_true_r.
    destruct (Nat.eqb_spec (idx l (c_labels c)) (q / 3)) as [E|E].
    - assert (l = lq). { pose proof (idx_nth _ _ Hl) as E'. rewrite E in E'. congruence. } subst l.
      rewrite Z.eqb_refl, vset_unit, Hv, E by (apply Nat.mod_upper_bound; lia). f_equal. f_equal. generalize (unit3 (q mod 3)). veq.
    - destruct (Z.eqb_spec l lq) as [->|].
      + exfalso. apply E. apply idx_of_nth; auto.
      + match goal with |- ?x = _ => generalize x end. generalize (unit3 (q mod 3)). veq. }
  unfold axis, place. rewrite !Hrow by auto. unfold sg.
  generalize (t - nth q (vflat U0) 0) as h. generalize (unit3 (q mod 3)) as e.
  generalize (row_of (c_labels c) U0 vzero (mb_a m)). generalize (row_of (c_labels c) U0 vzero (mb_b m)).
  generalize (row_of (c_labels c) (c_coords c) vzero (mb_a m)). generalize (row_of (c_labels c) (c_coords c) vzero (mb_b m)).
  rewrite !(Z.eqb_sym lq).
  destruct (Z.eqb_spec (mb_b m) lq), (Z.eqb_spec (mb_a m) lq); try congruence; veq.
Qed.

Lemma mvec_unit (M : m3 R) s d p : (d < 3)%nat -> (p < 3)%nat ->
  vget (mvec M (vscale s (unit3 d))) p = s * vget (vget M p) d.
Proof.
  intros Hd Hp. destruct M as [[a1 a2 a3] [b1 b2 b3] [d1 d2 d3]].
  unfold unit3, mvec, vscale, vdot, vzero, vmap, vmap2.
  destruct d as [|[|[|]]], p as [|[|[|]]]; try lia; cbn [vget vset vx vy vz]; numR; ring.
Qed.

(** ** The tangent of the residual *)
Lemma residual_tangent c ms u lam V0 w an an2 K :
  truss_ok c ms -> sizes_ok c ms an -> loads_ok c an ->
  length u = c_ndof1 c -> length V0 = S (c_ndof1 c) ->
  stiffness c u an = Ok (an2, K) -> regular c ms an (a_U an2) ->
  (forall v, length v = S (c_ndof1 c) -> exists an' g, equilibrium c v V0 w an = Ok (an', g)) /\
  forall i j, (i < c_ndof1 c)%nat -> (j < c_ndof1 c)%nat ->
    is_derive (fun t => nth i (value (equilibrium c (set_nth j t u ++ [lam]) V0 w an)) 0)
              (nth j u 0) (- nth j (nth i K []) 0).
Proof.
  intros Hok Hsz Hld Hu HV0 HK Hreg.
  destruct (stiffness_inv _ _ _ _ _ _ Hok Hsz HK) as (an1 & u' & lam' & qs & Hp & Hq & E2 & Hsel & HKd & Hent).
  assert (Htot : forall v, length v = S (c_ndof1 c) -> exists an' g, equilibrium c v V0 w an = Ok (an', g)).
  { intros v Hv. eapply equilibrium_total; eauto. }
  split; [exact Htot|]. intros i j Hi Hj.
  pose proof Hsz as (HU & _ & _ & _ & _ & _ & _ & _ & HD & HD' & Hn & _).
  destruct (prepare_U _ _ _ _ _ _ _ _ _ Hp eq_refl) as [_ HU2]. destruct (HU2 Hu) as (HS0 & _ & _).
  assert (EU : a_U an2 = a_U an1).
  { subst an2. cbn [a_U set_Kred]. pose proof (loop_frame StK c u' lam' false (zipk 0 ms qs) an1) as Hf. cbn zeta in Hf. apply Hf. }
  rewrite <- EU in HS0. set (U0 := a_U an2) in *.
  assert (HlU : length U0 = length (c_labels c)) by (apply scatter_length in HS0; congruence).
  pose proof (nth_nth_error (a_DOF1 an) i 0%nat ltac:(lia)) as Ei.
  pose proof (nth_nth_error (a_DOF1 an) j 0%nat ltac:(lia)) as Ej.
  set (p := nth i (a_DOF1 an) 0%nat) in *. set (q := nth j (a_DOF1 an) 0%nat) in *.
  assert (Hp3 : (p < 3 * length (c_labels c))%nat) by (apply HD'; eapply nth_error_In; eauto).
  assert (Hq3 : (q < 3 * length (c_labels c))%nat) by (apply HD'; eapply nth_error_In; eauto).
  assert (Hp3' : (p / 3 < length (c_labels c))%nat) by (apply Nat.div_lt_upper_bound; lia).
  assert (Hq3' : (q / 3 < length (c_labels c))%nat) by (apply Nat.div_lt_upper_bound; lia).
  pose proof (nth_nth_error (c_labels c) _ 0%Z Hp3') as Lp.
  pose proof (nth_nth_error (c_labels c) _ 0%Z Hq3') as Lq.
  set (lp := nth (p / 3) (c_labels c) 0%Z) in *. set (lq := nth (q / 3) (c_labels c) 0%Z) in *.
  assert (Hcp : (p mod 3 < 3)%nat) by (apply Nat.mod_upper_bound; lia).
  assert (Hcq : (q mod 3 < 3)%nat) by (apply Nat.mod_upper_bound; lia).
  assert (Hlq : length qs = length ms) by (eapply quants_length; eauto).
  assert (Hud : length u = length (a_DOF1 an)) by lia.
  assert (HqU : (q < 3 * length (a_U an))%nat) by lia.
  (* the matrix entry *)
  destruct (select2_ent _ _ _ Hsel) as (_ & Hse & _).
  assert (HKij : nth j (nth i K []) 0 = rsum (map (fun x => sg (fst (snd x)) lp *
      (sg (fst (snd x)) lq * vget (vget (truss_KTEE (snd (snd x))) (p mod 3)) (q mod 3))) (zipk 0 ms qs))).
  { rewrite (Hse _ _ _ _ Ei Ej), (flat_K_ent (length (c_labels c))) by auto.
    rewrite <- (idx_of_nth _ _ _ (proj1 Hok) Lp), <- (idx_of_nth _ _ _ (proj1 Hok) Lq).
    rewrite Hent by (eapply nth_error_In; eauto). rewrite vget_msum, map_map. f_equal.
    unfold zipk. rewrite <- (map_combine_snd (A:=nat) _ (seq 0 (length ms)) (combine ms qs)) by (rewrite seq_length, combine_length; lia).
    apply map_ext. intros x. rewrite vget_mscale, vget_vscale. ring. }
  (* the residual as a function of t *)
  set (t0 := nth j u 0) in *.
  assert (Hres : forall t, nth i (value (equilibrium c (set_nth j t u ++ [lam]) V0 w an)) 0
     = - rsum (map (fun x => sg (fst (snd x)) lp * vget (mvec_of c an (put_flat1 U0 q t) x) (p mod 3)) (zipk 0 ms qs))
       + (nth p (concat (a_fconst an)) 0 + lam * nth p (concat (a_forces an)) 0)).
  { intros t. assert (Hv : length (set_nth j t u ++ [lam]) = S (c_ndof1 c)).
    { rewrite app_length, set_nth_length. cbn. lia. }
    destruct (Htot _ Hv) as (an' & g & He). rewrite He. cbn [value].
    destruct (residual_formula _ _ _ _ _ _ _ _ Hok Hsz Hld Hv He) as (HS1 & _ & Hg).
    rewrite (Hg _ _ _ Ei Lp). rewrite last_snoc.
    replace (firstn (c_ndof1 c) (set_nth j t u ++ [lam])) with (set_nth j t u) in HS1.
    2:{ rewrite firstn_app, set_nth_length, Hu, Nat.sub_diag, firstn_all2 by (rewrite set_nth_length; lia). cbn. rewrite app_nil_r. reflexivity. }
    destruct (scatter_set _ _ _ _ _ t _ _ HD Hud Ej HS0 HS1 HqU) as [EU1 _].
    rewrite (force_sum _ _ _ _ _ _ _ _ qs lp Hok Hsz He Hlq) by (eapply nth_error_In; eauto).
    rewrite vget_vsum, map_map, EU1. rewrite Rplus_assoc. f_equal. f_equal. f_equal. apply map_ext. intros x. apply vget_vscale. }
  apply (is_derive_ext _ _ _ _ (fun t => eq_sym (Hres t))).
  rewrite HKij.
  apply (is_derive_ext (fun t => plus (opp (rsum (map (fun x => sg (fst (snd x)) lp * vget (mvec_of c an (put_flat1 U0 q t) x) (p mod 3)) (zipk 0 ms qs))))
    (nth p (concat (a_fconst an)) 0 + lam * nth p (concat (a_forces an)) 0))); [intros; reflexivity|].
  evar_last.
  - apply (is_derive_plus (K:=R_AbsRing) (V:=R_NormedModule)).
    + apply (is_derive_opp (K:=R_AbsRing) (V:=R_NormedModule)).
      apply (rsum_derive (fun x t => sg (fst (snd x)) lp * vget (mvec_of c an (put_flat1 U0 q t) x) (p mod 3))
        (fun x => sg (fst (snd x)) lp * (sg (fst (snd x)) lq * vget (vget (truss_KTEE (snd (snd x))) (p mod 3)) (q mod 3)))).
      intros [k [m qq]] Hin. cbn [fst snd].
      apply (is_derive_scal (fun t => vget (mvec_of c an (put_flat1 U0 q t) (k, (m, qq))) (p mod 3))).
      apply In_nth_error in Hin. destruct Hin as [k' Hk']. rewrite nth_error_zipk in Hk' by exact Hlq.
      destruct (nth_error ms k') as [m'|] eqn:Em; [|discriminate].
      destruct (nth_error qs k') as [q'|] eqn:Eqq; [|discriminate]. injection Hk' as -> -> ->.
      destruct (quants_nth _ _ _ _ _ _ _ Hq _ _ Em) as (q1 & Hq1 & Hmq). rewrite Eqq in Hq1. injection Hq1 as <-.
      assert (Hm : In m ms) by (eapply nth_error_In; eauto).
      destruct (member_q_inv c ms U0 _ _ _ _ Hok Hm HlU Hmq) as (Qn & Ql & QL & Qll & de & Hum & HA & HN).
      destruct (Hreg _ _ Em) as (HL0 & Hl0 & Hsm). rewrite Nat.add_0_l in Hum.
      pose proof (umat_derive _ _ _ _ _ _ _ _ Hum Hsm) as Hder.
      assert (Ht0 : nth q (vflat U0) 0 = t0).
      { destruct (scatter_ok _ _ _ _ HD Hud HS0) as (_ & _ & G0). pose proof (G0 _ _ Ej) as G.
        rewrite (nth_nth_error u j 0) in G by lia. apply nth_error_nth with (d := 0) in G. exact G. }
      eapply is_derive_ext.
      { intros t. unfold mvec_of. cbn [fst snd]. rewrite (axis_set c ms U0 q t m lq Hok Hm HlU Lq), Ht0. reflexivity. }
      evar_last.
      * apply member_derive; [exact Hl0|exact HL0| |exact Hcp].
        change (len (axis c U0 m) / len (axis0 c m)) with (stretch_of c U0 m). exact Hder.
      * rewrite mvec_unit by auto. f_equal. f_equal. f_equal.
        unfold truss_KTEE. rewrite Qn, QL, Qll, HN.
        assert (HAq : hd 0 (mb_geo m) = q_A qq) by (unfold item in HA; destruct (mb_geo m); [discriminate|injection HA as ->; reflexivity]).
        rewrite HAq. change (len (axis c U0 m) / len (axis0 c m)) with (stretch_of c U0 m).
        rewrite (sig_of_ok _ _ _ _ _ _ _ _ Hum). unfold direction. numR. rewrite (Rmult_comm (q_A qq) (q_stress qq)). reflexivity.
    + apply (is_derive_const (K:=R_AbsRing) (V:=R_NormedModule)).
  - unfold plus, opp, zero. cbn. match goal with |- @eq _ ?a ?b => change (@eq R a b) end. ring.
Qed.

(** ** The extended system (load control variable and control row) *)
Lemma stiffness_f0red c (u : list R) an an' K : stiffness c u an = Ok (an', K) ->
  forall ms, truss_ok c ms -> sizes_ok c ms an -> a_f0red an' = a_f0red an.
Proof.
  intros H ms Hok Hsz.
  destruct (stiffness_inv _ _ _ _ _ _ Hok Hsz H) as (an1 & u' & lam & qs & Hp & _ & -> & _).
  pose proof (loop_frame StK c u' lam false (zipk 0 ms qs) an1) as Hf. cbn zeta in Hf.
  pose proof (prepare_frame _ _ _ _ _ _ _ _ Hp) as Pf. cbn [a_f0red set_Kred].
  transitivity (a_f0red an1); [apply Hf|apply Pf].
Qed.

Lemma py_pos_bound n i p : py_pos n i = Ok p -> (p < n)%nat.
Proof.
  unfold py_pos. intros H.
  destruct ((0 <=? i)%Z && (i <? Z.of_nat n)%Z)%bool eqn:E1.
  - injection H as <-. apply andb_prop in E1. destruct E1 as [A B].
    apply Z.leb_le in A. apply Z.ltb_lt in B. lia.
  - destruct ((- Z.of_nat n <=? i)%Z && (i <? 0)%Z)%bool eqn:E2; [|discriminate]. injection H as <-.
    apply andb_prop in E2. destruct E2 as [A B]. apply Z.leb_le in A. apply Z.ltb_lt in B. lia.
Qed.

Lemma snoc_split (V : list R) n : length V = S n -> V = removelast V ++ [last V 0] /\ length (removelast V) = n.
Proof.
  intros H. assert (HV : V <> []) by (destruct V; discriminate).
  split; [apply app_removelast_last; exact HV|].
  rewrite (app_removelast_last 0 HV), app_length in H. cbn in H. lia.
Qed.

Lemma set_nth_app1 {A} k (t : A) u v : (k < length u)%nat -> set_nth k t (u ++ v) = set_nth k t u ++ v.
Proof. revert k. induction u as [|x u IH]; intros [|k] H; cbn in *; try lia; auto. f_equal. apply IH. lia. Qed.
Lemma set_nth_app2 {A} k (t x : A) u : k = length u -> set_nth k t (u ++ [x]) = u ++ [t].
Proof. intros ->. induction u as [|y u IH]; cbn; auto. f_equal. exact IH. Qed.

Lemma is_derive_lin (a b t0 : R) : is_derive (fun t => a + t * b) t0 b.
Proof. auto_derive; auto. match goal with |- @eq _ ?a ?b => change (@eq R a b) end. ring. Qed.

Lemma extended_tangent c ms V V0 w an j Vmax an2 Km :
  truss_ok c ms -> sizes_ok c ms an -> loads_ok c an ->
  length V = S (c_ndof1 c) -> length V0 = S (c_ndof1 c) ->
  gather (concat (a_forces an)) (a_DOF1 an) = Ok (a_f0red an) ->
  dfdx (stiffness c) j V an = Ok (an2, Km) -> regular c ms an (a_U an2) ->
  (forall v, length v = S (c_ndof1 c) ->
     exists an' f, f_ext (equilibrium c) V0 j Vmax w v an = Ok (an', f)) /\
  (forall i k, (i < S (c_ndof1 c))%nat -> (k < S (c_ndof1 c))%nat ->
    is_derive (fun t => nth i (value (f_ext (equilibrium c) V0 j Vmax w (set_nth k t V) an)) 0)
              (nth k V 0) (nth k (nth i Km []) 0)).
Proof.
  intros Hok Hsz Hld HV HV0 Hf0 H Hreg. unfold dfdx in H. mstep H. rename a into qc. rename Ha into Hqc.
  mstep H. destruct a as [an1 K]. rename Ha into HK. mstep H. rename a into Kf. rename Ha into HKf.
  destruct (forallb _ Kf) eqn:Hall; [|discriminate]. injection H as <- <-. cbn [a_U set_Kmod] in Hreg.
  unfold ctrl_row in Hqc. mstep Hqc. injection Hqc as <-. rename a into p. rename Ha into Hp.
  set (n := c_ndof1 c) in *. pose proof (py_pos_bound _ _ _ Hp) as Hpn. rewrite HV in Hpn.
  destruct (snoc_split V n HV) as [EV HuL]. set (u := removelast V) in *. set (lam := last V 0) in *.
  assert (Hszj : sizes_ok c ms (set_j j an)) by exact Hsz.
  assert (Hldj : loads_ok c (set_j j an)) by exact Hld.
  assert (Hregj : regular c ms (set_j j an) (a_U an1)) by exact Hreg.
  destruct (residual_tangent c ms u lam V0 w _ _ _ Hok Hszj Hldj HuL HV0 HK Hregj) as [Htot Hder].
  pose proof (stiffness_f0red _ _ _ _ _ HK ms Hok Hszj) as Hf0r. cbn [a_f0red set_j] in Hf0r.
  assert (HpV : forall v, length v = S n -> py_get v (Z.abs j - 1) = Ok (nth p v 0)).
  { intros v Hv. unfold py_get. rewrite Hv. rewrite HV in Hp. rewrite Hp. cbn [bind].
    rewrite (nth_nth_error v p 0) by lia. reflexivity. }
  assert (Hfx : forall v, length v = S n -> exists an' g,
     equilibrium c v V0 w (set_j j an) = Ok (an', g) /\
     f_ext (equilibrium c) V0 j Vmax w v an = Ok (an', map fopp g ++ [nth p v 0 - Vmax])).
  { intros v Hv. destruct (Htot v Hv) as (an' & g & He). exists an', g. split; [exact He|].
    unfold f_ext. rewrite He. cbn [bind]. rewrite HpV by exact Hv. reflexivity. }
  pose proof Hsz as (_ & _ & _ & _ & _ & _ & _ & _ & HD & HD' & Hn & _). fold n in Hn.
  assert (Hglen : forall v an' g, length v = S n -> equilibrium c v V0 w (set_j j an) = Ok (an', g) -> length g = n).
  { intros v an' g Hv He. destruct (residual_formula _ _ _ _ _ _ _ _ Hok Hszj Hldj Hv He) as (_ & L & _). cbn in L. lia. }
  split.
  { intros v Hv. destruct (Hfx v Hv) as (an' & g & _ & E). eauto. }
  intros i k Hi Hk.
  assert (Hst : forall t, length (set_nth k t V) = S n) by (intros; rewrite set_nth_length; exact HV).
  (* matrix entries *)
  unfold hstack_col in HKf. destruct (Nat.eqb_spec (length K) (length (map fopp (a_f0red an1)))) as [HlK|]; [|discriminate].
  injection HKf as <-.
  assert (HlF : length (a_f0red an1) = n) by (rewrite Hf0r; apply gather_length in Hf0; lia).
  rewrite map_length, HlF in HlK.
  destruct (stiffness_inv _ _ _ _ _ _ Hok Hszj HK) as (_ & _ & _ & _ & _ & _ & _ & Hsel & _).
  destruct (select2_ent _ _ _ Hsel) as (_ & _ & HrK). cbn [a_DOF1 set_j] in HrK. rewrite <- Hn in HrK.
  assert (HlKf : length (map2 (fun row x => row ++ [x]) K (map Ropp (a_f0red an1))) = n).
  { rewrite map2_length, map_length. lia. }
  destruct (Nat.eq_dec i n) as [->|Hin].
  - (* control equation *)
    rewrite (app_nth2 _ _ [] (n:=n)) by (unfold ge; rewrite HlKf; lia). rewrite HlKf, Nat.sub_diag. cbn [nth].
    rewrite nth_set_nth, repeat_length, HV. destruct (Nat.ltb_spec p (S n)); [|lia]. rewrite andb_true_r.
    assert (Hval0 : forall t : R, nth p (set_nth k t V) 0 - Vmax
       = nth n (value (f_ext (equilibrium c) V0 j Vmax w (set_nth k t V) an)) 0).
    { intros t. destruct (Hfx _ (Hst t)) as (an' & g & He & ->). cbn [value].
      rewrite app_nth2; rewrite map_length, (Hglen _ _ _ (Hst t) He); [|lia]. rewrite Nat.sub_diag. reflexivity. }
    apply (is_derive_ext _ _ _ _ Hval0). clear Hval0.
    destruct (Nat.eqb_spec k p) as [->|Hkp].
    + apply (is_derive_ext (fun t => (- Vmax) + t * 1)).
      { intros t. rewrite nth_set_nth, Nat.eqb_refl, HV. destruct (Nat.ltb_spec p (S n)); [|lia]. cbn [andb]. 
        match goal with |- @eq _ ?a ?b => change (@eq R a b) end. ring. }
      apply is_derive_lin.
    + apply (is_derive_ext (fun _ => nth p V 0 - Vmax)).
      { intros t. rewrite nth_set_nth. destruct (Nat.eqb_spec p k); [congruence|reflexivity]. }
      rewrite nth_repeat. apply (is_derive_const (K:=R_AbsRing) (V:=R_NormedModule)).
  - assert (Hin' : (i < n)%nat) by lia.
    rewrite (app_nth1 _ _ [] (n:=i)) by (rewrite HlKf; lia).
    pose proof (nth_nth_error K i [] ltac:(lia)) as EKi.
    pose proof (nth_nth_error (a_f0red an1) i 0 ltac:(lia)) as EFi.
    assert (Erow : nth i (map2 (fun row x => row ++ [x]) K (map Ropp (a_f0red an1))) []
        = nth i K [] ++ [- nth i (a_f0red an1) 0]).
    { assert (E : nth_error (map2 (fun row x => row ++ [x]) K (map Ropp (a_f0red an1))) i
        = Some (nth i K [] ++ [- nth i (a_f0red an1) 0])).
      { rewrite nth_error_map2, nth_error_map, EKi, EFi. reflexivity. }
      apply nth_error_nth with (d := []) in E. exact E. }
    rewrite Erow.
    assert (HrKi : length (nth i K []) = n) by (apply HrK; apply nth_In; lia).
    assert (Hval : forall t, nth i (value (f_ext (equilibrium c) V0 j Vmax w (set_nth k t V) an)) 0
       = opp (nth i (value (equilibrium c (set_nth k t V) V0 w (set_j j an))) 0)).
    { intros t. destruct (Hfx _ (Hst t)) as (an' & g & He & ->). rewrite He. cbn [value].
      pose proof (Hglen _ _ _ (Hst t) He) as Hg. rewrite app_nth1 by (rewrite map_length; lia).
      rewrite (nth_indep _ 0 (- 0)) by (rewrite map_length; lia). 
      change (nth i (map Ropp g) (Ropp 0) = - nth i g 0). rewrite map_nth. reflexivity. }
    apply (is_derive_ext _ _ _ _ (fun t => eq_sym (Hval t))).
    destruct (Nat.eq_dec k n) as [->|Hkn].
    + (* load factor *)
      rewrite app_nth2 by lia. rewrite HrKi, Nat.sub_diag. cbn [nth].
      assert (Hlf : forall t : R, nth i (value (equilibrium c V V0 w (set_j j an))) 0 - lam * nth i (a_f0red an1) 0 + t * nth i (a_f0red an1) 0
         = nth i (value (equilibrium c (set_nth n t V) V0 w (set_j j an))) 0).
      { intros t.
        destruct (Htot _ (Hst t)) as (ant & gt & Het). destruct (Htot _ HV) as (anv & gv & Hev).
        rewrite Het, Hev. cbn [value].
        pose proof (nth_nth_error (a_DOF1 an) i 0%nat ltac:(lia)) as Ei.
        set (pp := nth i (a_DOF1 an) 0%nat) in *.
        assert (Hp3 : (pp < 3 * length (c_labels c))%nat) by (apply HD'; eapply nth_error_In; eauto).
        assert (Hp3' : (pp / 3 < length (c_labels c))%nat) by (apply Nat.div_lt_upper_bound; lia).
        pose proof (nth_nth_error (c_labels c) _ 0%Z Hp3') as Lp.
        destruct (residual_formula _ _ _ _ _ _ _ _ Hok Hszj Hldj (Hst t) Het) as (S1 & _ & R1).
        destruct (residual_formula _ _ _ _ _ _ _ _ Hok Hszj Hldj HV Hev) as (S2 & _ & R2).
        rewrite (R1 _ _ _ Ei Lp), (R2 _ _ _ Ei Lp).
        assert (EVt : set_nth n t V = u ++ [t]) by (rewrite EV at 1; apply set_nth_app2; auto).
        rewrite EVt in S1 |- *. rewrite EV in S2 |- *. rewrite !last_snoc.
        assert (Hfn : forall x, firstn n (u ++ [x]) = u).
        { intros x. rewrite firstn_app, HuL, Nat.sub_diag, firstn_all2 by lia. cbn. apply app_nil_r. }
        fold n in S1, S2. rewrite Hfn in S1. rewrite Hfn in S2.
        assert (EU : a_U ant = a_U anv) by congruence.
        assert (Hlp : In (nth (pp / 3) (c_labels c) 0%Z) (c_labels c)) by (eapply nth_error_In; eauto).
        destruct (stiffness_inv _ _ _ _ _ _ Hok Hszj HK) as (_ & _ & _ & qs & _ & Hq & _).
        assert (Hlq : length qs = length ms) by (eapply quants_length; eauto).
        rewrite (force_sum _ _ _ _ _ _ _ _ qs _ Hok Hszj Het Hlq Hlp).
        rewrite (force_sum _ _ _ _ _ _ _ _ qs _ Hok Hszj Hev Hlq Hlp). rewrite EU.
        assert (Ef : nth i (a_f0red an1) 0 = nth pp (concat (a_forces an)) 0).
        { rewrite Hf0r. destruct (gather_nth _ _ _ Hf0) as [_ Hg]. destruct (Hg _ _ Ei) as [Hg1 Hg2].
          rewrite (nth_nth_error (concat (a_forces an)) pp 0 Hg2) in Hg1. apply nth_error_nth with (d := 0) in Hg1. exact Hg1. }
        rewrite Ef. cbn [a_fconst a_forces set_j]. ring. }
      evar_last.
      * apply (is_derive_opp (K:=R_AbsRing) (V:=R_NormedModule)).
        apply (is_derive_ext _ _ _ _ Hlf). apply is_derive_lin.
      * reflexivity.
    + assert (Hkn' : (k < n)%nat) by lia.
      rewrite app_nth1 by lia.
      evar_last.
      * apply (is_derive_opp (K:=R_AbsRing) (V:=R_NormedModule)).
        assert (Hlf : forall t : R, nth i (value (equilibrium c (set_nth k t u ++ [lam]) V0 w (set_j j an))) 0
          = nth i (value (equilibrium c (set_nth k t V) V0 w (set_j j an))) 0).
        { intros t. replace (set_nth k t V) with (set_nth k t u ++ [lam]); [reflexivity|].
          rewrite EV. symmetry. apply set_nth_app1. lia. }
        apply (is_derive_ext _ _ _ _ Hlf). replace (nth k V 0) with (nth k u 0).
        -- exact (Hder i k Hin' Hkn').
        -- rewrite EV. rewrite app_nth1 by lia. reflexivity.
      * unfold opp. cbn. match goal with |- @eq _ ?a ?b => change (@eq R a b) end. ring.
Qed.
