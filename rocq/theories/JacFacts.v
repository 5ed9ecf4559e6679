(** * Entries of the extended matrix, and evaluations that do not depend on what was evaluated before *)
From Coq Require Import List ZArith Bool Arith Lia Reals Lra.
From Coquelicot Require Import Coquelicot.
Import ListNotations.
From Verif Require Import Num NumR Vec Handlers Material Analysis Truss Equil Solver ListFacts SpecMaterial SpecMech SpecMechR EquilFacts
  MechFacts StiffFacts TangentFacts SpecForm FormFacts EnergyFacts SpecState FrameFacts EvalFacts SpecBar BarFacts PropMech SpecNewton BallFacts OneFacts.
Local Open Scope R_scope.

(** Stiffness of one member against a relative displacement of its ends. *)
Definition mem_K (c : ctx R) (an : analysis R) (U : list (v3 R)) (km : nat * member R) : m3 R :=
  let m := snd km in let n := direction c U m in
  madd (mscale (axial_of c an U (fst km) m / len (axis0 c m)) (vouter n n))
       (mscale (force_of c an U (fst km) m / len (axis c U m)) (msub meye (vouter n n))).

Definition lab (c : ctx R) (p : nat) : Z := nth (p / 3) (c_labels c) 0%Z.

Definition K_entry (c : ctx R) (ms : list (member R)) (an : analysis R) (U : list (v3 R)) (p q : nat) : R :=
  rsum (map (fun km => sg (snd km) (lab c p) * (sg (snd km) (lab c q) * vget (vget (mem_K c an U km) (p mod 3)) (q mod 3)))
            (combine (seq 0 (length ms)) ms)).

(** Entry of the extended matrix: stiffness, minus the loads, control row. *)
Definition J_entry (c : ctx R) (ms : list (member R)) (an : analysis R) (j : Z) (U : list (v3 R)) (i k : nat) : R :=
  let n := c_ndof1 c in
  if Nat.eqb i n then (if Nat.eqb k (Z.to_nat (Z.abs j - 1)) then 1 else 0)
  else if Nat.eqb k n then - nth i (a_f0red an) 0
  else K_entry c ms an U (nth i (a_DOF1 an) 0%nat) (nth k (a_DOF1 an) 0%nat).

Lemma stiff_entry c ms u an an2 K : truss_ok c ms -> sizes_ok c ms an -> stiffness c u an = Ok (an2, K) ->
  sq (c_ndof1 c) K /\ forall i j, (i < c_ndof1 c)%nat -> (j < c_ndof1 c)%nat ->
    ent K i j = K_entry c ms an (a_U an2) (nth i (a_DOF1 an) 0%nat) (nth j (a_DOF1 an) 0%nat).
Proof.
  intros Hok Hsz H. destruct (blocks _ _ _ _ _ _ Hok Hsz H) as (qs & Hq & HK & Hs & HlU & Hb).
  pose proof Hok as (Hnd & _). pose proof Hsz as (_ & _ & _ & _ & _ & _ & _ & _ & HD & HD' & Hn & _).
  destruct (select2_ent _ _ _ Hs) as (Hl1 & Hse & Hl2).
  split; [split; [lia|intros row Hr; rewrite Hn; apply Hl2; exact Hr]|]. intros i j Hi Hj.
  pose proof (nth_nth_error (a_DOF1 an) i 0%nat ltac:(lia)) as Ei. pose proof (nth_nth_error (a_DOF1 an) j 0%nat ltac:(lia)) as Ej.
  set (p := nth i (a_DOF1 an) 0%nat) in *. set (q := nth j (a_DOF1 an) 0%nat) in *.
  assert (Hp3 : (p < 3 * length (c_labels c))%nat) by (apply HD'; eapply nth_error_In; eauto).
  assert (Hq3 : (q < 3 * length (c_labels c))%nat) by (apply HD'; eapply nth_error_In; eauto).
  assert (Lp : nth_error (c_labels c) (p / 3) = Some (lab c p)) by (apply nth_nth_error; apply Nat.div_lt_upper_bound; lia).
  assert (Lq : nth_error (c_labels c) (q / 3) = Some (lab c q)) by (apply nth_nth_error; apply Nat.div_lt_upper_bound; lia).
  assert (Hlq : length qs = length ms) by (eapply quants_length; eauto).
  rewrite (Hse _ _ _ _ Ei Ej), (flat_K_ent (length (c_labels c))) by auto.
  rewrite <- (idx_of_nth _ _ _ Hnd Lp), <- (idx_of_nth _ _ _ Hnd Lq), <- K_block_kent by (auto; eapply nth_error_In; eauto).
  rewrite Hb by (eapply nth_error_In; eauto). rewrite vget_msum, map_map. unfold K_entry.
  rewrite (seq_zipk ms qs Hlq), map_map. unfold zipk.
  rewrite <- (map_combine_snd (A:=nat) _ (seq 0 (length ms)) (combine ms qs)) by (rewrite seq_length, combine_length; lia).
  apply rsum_ext. intros [k [m q0]] Hin. cbn [fst snd]. fold (zipk 0 ms qs) in Hin.
  apply In_nth_error in Hin. destruct Hin as [k' Hk']. rewrite nth_error_zipk in Hk' by exact Hlq.
  destruct (nth_error ms k') as [m'|] eqn:Em; [|discriminate].
  destruct (nth_error qs k') as [q'|] eqn:Eqq; [|discriminate]. injection Hk' as -> -> ->.
  rewrite vget_mscale, vget_vscale, Rmult_assoc. f_equal. f_equal. f_equal. f_equal.
  destruct (quants_nth _ _ _ _ _ _ _ Hq _ _ Em) as (q1 & Hq1 & Hmq). rewrite Eqq in Hq1. injection Hq1 as <-.
  assert (Hm : In m ms) by (eapply nth_error_In; eauto).
  destruct (member_q_inv c ms (a_U an2) _ _ _ _ Hok Hm HlU Hmq) as (Qn & Ql & QL & Qll & de & Hum & HA & HN).
  rewrite Nat.add_0_l in Hum. destruct (tangent_at_ok _ _ _ _ _ _ _ _ Hum) as [Ht Hs'].
  assert (HAq : nth 0 (mb_geo m) 0 = q_A q0) by (unfold item in HA; destruct (mb_geo m); [discriminate|injection HA as ->; reflexivity]).
  unfold mem_K, truss_KTEE, axial_of, force_of. cbn [fst snd]. rewrite HAq, Ht, Hs', Qn, QL, Qll, HN. numR.
  rewrite (Rmult_comm (q_A q0) (q_dsde q0)), (Rmult_comm (q_A q0) (q_stress q0)). reflexivity.
Qed.

Lemma dfdx_entry c ms j V an an2 Km : truss_ok c ms -> sizes_ok c ms an -> length V = S (c_ndof1 c) -> length (a_f0red an) = c_ndof1 c ->
  (1 <= Z.abs j <= Z.of_nat (length V))%Z -> dfdx (stiffness c) j V an = Ok (an2, Km) ->
  sq (S (c_ndof1 c)) Km /\ forall i k, (i < S (c_ndof1 c))%nat -> (k < S (c_ndof1 c))%nat ->
    ent Km i k = J_entry c ms an j (a_U an2) i k.
Proof.
  intros Hok Hsz HV Hf Hj H. unfold dfdx in H. mstep H. rename a into qc. rename Ha into Hqc.
  mstep H. destruct a as [an1 K]. rename Ha into HK. mstep H. rename a into Kf. rename Ha into HKf.
  destruct (forallb _ Kf) eqn:Hall; [|discriminate]. injection H as <- <-. cbn [a_U set_Kmod].
  assert (Hszj : sizes_ok c ms (set_j j an)) by exact Hsz.
  destruct (stiff_entry _ _ _ _ _ _ Hok Hszj HK) as [[L1 L2] HE].
  pose proof (stiffness_f0red _ _ _ _ _ HK ms Hok Hszj) as Hf0r. cbn [a_f0red set_j] in Hf0r.
  unfold hstack_col in HKf. destruct (Nat.eqb_spec (length K) (length (map fopp (a_f0red an1)))) as [HlK|]; [|discriminate].
  injection HKf as <-.
  assert (Eqc : qc = set_nth (Z.to_nat (Z.abs j - 1)) 1 (repeat 0 (S (c_ndof1 c)))).
  { unfold ctrl_row, py_pos in Hqc.
    destruct (Z.leb_spec 0 (Z.abs j - 1)); [|lia]. destruct (Z.ltb_spec (Z.abs j - 1) (Z.of_nat (length V))); [|lia].
    cbn [andb bind] in Hqc. injection Hqc as <-. rewrite HV. reflexivity. }
  assert (Hlqc : length qc = S (c_ndof1 c)) by (rewrite Eqc, set_nth_length, repeat_length; reflexivity).
  change (map fopp (a_f0red an1)) with (map Ropp (a_f0red an1)) in *.
  assert (HlKf : length (map2 (fun row x => row ++ [x]) K (map Ropp (a_f0red an1))) = c_ndof1 c) by (rewrite map2_length; lia).
  split.
  { split; [rewrite app_length, HlKf; cbn; lia|]. intros row Hr. apply in_app_or in Hr. destruct Hr as [Hr|[<-|[]]]; [|exact Hlqc].
    rewrite forallb_forall in Hall. specialize (Hall row Hr). apply Nat.eqb_eq in Hall. lia. }
  intros i k Hi Hk. unfold J_entry. destruct (Nat.eqb_spec i (c_ndof1 c)) as [->|Hin].
  - rewrite (app_nth2 _ _ []) by (unfold ge; rewrite HlKf; lia). rewrite HlKf, Nat.sub_diag. cbn [nth].
    rewrite Eqc, nth_set_nth, repeat_length, nth_repeat. destruct (Nat.ltb_spec (Z.to_nat (Z.abs j - 1)) (S (c_ndof1 c))); [|lia].
    rewrite andb_true_r. reflexivity.
  - rewrite (app_nth1 _ _ []) by (rewrite HlKf; lia).
    pose proof (nth_nth_error K i [] ltac:(lia)) as EKi. pose proof (nth_nth_error (a_f0red an1) i 0 ltac:(rewrite Hf0r; lia)) as EFi.
    assert (Erow : nth i (map2 (fun row x => row ++ [x]) K (map Ropp (a_f0red an1))) [] = nth i K [] ++ [- nth i (a_f0red an1) 0]).
    { assert (E : nth_error (map2 (fun row x => row ++ [x]) K (map Ropp (a_f0red an1))) i = Some (nth i K [] ++ [- nth i (a_f0red an1) 0])).
      { rewrite nth_error_map2, nth_error_map, EKi, EFi. reflexivity. }
      apply nth_error_nth with (d := []) in E. exact E. }
    rewrite Erow.
    assert (HrKi : length (nth i K []) = c_ndof1 c) by (apply L2; apply nth_In; lia).
    destruct (Nat.eqb_spec k (c_ndof1 c)) as [->|Hkn].
    + rewrite app_nth2 by lia. rewrite HrKi, Nat.sub_diag. cbn [nth]. rewrite Hf0r. reflexivity.
    + rewrite app_nth1 by lia. apply HE; lia.
Qed.

(** ** Objects that respond alike *)

(** State rows with which a member responds alike: the same row, or, for a plastic
    member, the same plastic strain and the same current yield stress. *)
Definition same_row (m : member R) (row row' : option (list R)) : Prop :=
  row' = row \/ mb_law m = UmatEl \/ exists y y' q r r', row = Some (y :: q :: r) /\ row' = Some (y' :: q :: r') /\
    yield_before (nth 2 (mb_mat m) 0) y' = yield_before (nth 2 (mb_mat m) 0) y.

Definition rows_alike (c : ctx R) (ms : list (member R)) (a0 an : analysis R) : Prop :=
  forall k m, nth_error ms k = Some m -> same_row m (state_row c a0 k) (state_row c an k).

(** Same load step, same locked displacements, and state variables with which the
    members respond alike. *)
Definition alike (c : ctx R) (ms : list (member R)) (a0 an : analysis R) : Prop :=
  same_setup a0 an /\ sizes_ok c ms an /\ rows_alike c ms a0 an.

(** Stress and tangent. *)
Definition response (x : res (R * R * option (list R))) : res (R * R) :=
  match x with Ok (s, t, _) => Ok (s, t) | Err e => Err e | Timeout => Timeout end.

Lemma same_row_umat m row row' e de : same_row m row row' ->
  response (umat (mb_law m) e de (mb_mat m) row') = response (umat (mb_law m) e de (mb_mat m) row).
Proof.
  intros [->|[E|(y & y' & q & r & r' & -> & -> & E)]]; [reflexivity| |].
  - rewrite E. cbn [umat]. unfold umat_el. destruct (item (mb_mat m) 0); reflexivity.
  - destruct (mb_law m); cbn [umat].
    { unfold umat_el. destruct (item (mb_mat m) 0); reflexivity. }
    unfold umat_elplast_iso. destruct (mb_mat m) as [|E0 [|K [|Sy rest]]]; try reflexivity. cbn [item nth_error bind nth] in *.
    change (if fltb y' y' then Sy else y') with y' in *.
    assert (Ey : forall t, (if feqb t f0 then Sy else t) = yield_before Sy t).
    { intros t. unfold yield_before. cbn [feqb f0 NumR]. unfold Reqb. destruct (Req_EM_T t 0); reflexivity. }
    rewrite !Ey, E. destruct (fleb _ f0); reflexivity.
Qed.

Lemma same_row_at m row row' e : same_row m row row' ->
  stress_at (mb_law m) (mb_mat m) row' e = stress_at (mb_law m) (mb_mat m) row e /\
  tangent_at (mb_law m) (mb_mat m) row' e = tangent_at (mb_law m) (mb_mat m) row e.
Proof.
  intros H. pose proof (same_row_umat m row row' e 0 H) as G. unfold stress_at, tangent_at.
  destruct (umat (mb_law m) e 0 (mb_mat m) row') as [[[? ?] ?]| |], (umat (mb_law m) e 0 (mb_mat m) row) as [[[? ?] ?]| |]; cbn in G; try discriminate; [|auto|auto].
  injection G as -> ->. auto.
Qed.

Lemma same_row_trans m a b d : same_row m a b -> same_row m b d -> same_row m a d.
Proof.
  intros [->|[H|(y & y' & q & r & r' & -> & -> & E)]] H2; [exact H2|right; left; exact H|].
  destruct H2 as [->|[H|(z & z' & q' & s & s' & E1 & -> & E2)]]; [|right; left; exact H|].
  - right. right. exists y, y', q, r, r'. auto.
  - injection E1 as <- <- <-. right. right. exists y, z', q, r, s'. rewrite E2. auto.
Qed.

Lemma same_row_sym m a b : same_row m a b -> same_row m b a.
Proof.
  intros [->|[H|(y & y' & q & r & r' & -> & -> & E)]]; [left; reflexivity|right; left; exact H|]. right. right. exists y', y, q, r', r. auto.
Qed.

Lemma enum_In {A} (ms : list A) k m : In (k, m) (combine (seq 0 (length ms)) ms) -> nth_error ms k = Some m.
Proof.
  intros H. apply In_nth_error in H. destruct H as [i Hi]. rewrite nth_error_combine, nth_error_seq in Hi.
  destruct (Nat.ltb i (length ms)); [|discriminate]. destruct (nth_error ms i) eqn:E; [|discriminate]. injection Hi as <- <-. exact E.
Qed.

Section Alike.
  Variables (c : ctx R) (ms : list (member R)).

  Lemma alike_state a0 an : a_state an = a_state a0 -> rows_alike c ms a0 an.
  Proof. intros E k m _. left. unfold state_row. now rewrite E. Qed.
  Lemma alike_refl a0 : sizes_ok c ms a0 -> alike c ms a0 a0.
  Proof. intros H. split; [apply same_refl|]. split; [exact H|]. now apply alike_state. Qed.
  Lemma rows_trans a b d : rows_alike c ms a b -> rows_alike c ms b d -> rows_alike c ms a d.
  Proof. intros H1 H2 k m Hm. eapply same_row_trans; eauto. Qed.
  Lemma alike_props a0 an : rows_alike c ms a0 an -> props_ok c ms a0 -> props_ok c ms an.
  Proof.
    intros E H k m Hm. specialize (H k m Hm). destruct H as [H1 H2]. split; [exact H1|]. destruct (mb_law m) eqn:El; [exact H2|].
    destruct H2 as (H3 & y0 & q0 & r0 & H2). split; [exact H3|]. destruct (E k m Hm) as [->|[E1|(y & y' & q & r & r' & _ & -> & _)]]; [eauto|congruence|eauto].
  Qed.

  (** The residual depends on the state rows through the responses only. *)
  Lemma equil_alike V V0 w w' a b a' b' g g' : truss_ok c ms -> sizes_ok c ms a -> sizes_ok c ms b -> loads_ok c a -> same_setup a b -> rows_alike c ms a b ->
    length V = S (c_ndof1 c) -> equilibrium c V V0 w a = Ok (a', g) -> equilibrium c V V0 w' b = Ok (b', g') -> g' = g.
  Proof.
    intros Hok Sa Sb La Hs Hr HV Ea Eb.
    assert (Lb : loads_ok c b) by (destruct Hs as (_ & _ & _ & _ & Hc & Ho & _); unfold loads_ok; rewrite Hc, Ho; exact La).
    destruct (equilibrium_inv _ _ _ _ _ _ _ _ Hok Sa Ea) as (_ & _ & _ & qs & _ & _ & Hq & _). apply quants_length in Hq.
    destruct (residual_formula _ _ _ _ _ _ _ _ Hok Sa La HV Ea) as (U1 & L1 & R1).
    destruct (residual_formula _ _ _ _ _ _ _ _ Hok Sb Lb HV Eb) as (U2 & L2 & R2).
    pose proof Hs as (_ & _ & HD & _ & Hc & Ho & _ & _ & HU & _). rewrite HD in U2, L2, R2. rewrite Hc, Ho in R2.
    assert (EU : a_U b' = a_U a').
    { eapply scatter_same; [| |exact U2|exact U1]; [|exact HU]. destruct Sa as (K1 & _), Sb as (K2 & _). congruence. }
    apply (nth_ext g' g 0 0); [congruence|]. intros i Hi. rewrite L2 in Hi.
    destruct (nth_error (a_DOF1 a) i) as [p|] eqn:Ep; [|apply nth_error_None in Ep; lia].
    assert (Hp : (p / 3 < length (c_labels c))%nat).
    { apply nth_error_In in Ep. destruct Sa as (_ & _ & _ & _ & _ & _ & _ & _ & _ & Hd & _). apply Nat.div_lt_upper_bound; [lia|]. apply Hd, Ep. }
    destruct (nth_error (c_labels c) (p / 3)) as [l|] eqn:El; [|apply nth_error_None in El; lia].
    rewrite (R1 i p l Ep El), (R2 i p l Ep El). pose proof (nth_error_In _ _ El) as Hin.
    rewrite (force_sum _ _ _ _ _ _ _ _ qs l Hok Sa Ea Hq Hin), (force_sum _ _ _ _ _ _ _ _ qs l Hok Sb Eb Hq Hin), EU.
    do 4 f_equal. f_equal. apply map_ext_in. intros [k [m q]] Hx. f_equal.
    apply In_nth_error in Hx. destruct Hx as [k' Hk']. rewrite nth_error_zipk in Hk' by exact Hq.
    destruct (nth_error ms k') as [m'|] eqn:Em; [|discriminate]. destruct (nth_error qs k') as [q'|]; [|discriminate]. injection Hk' as -> -> ->.
    unfold mvec_of, member_vec. cbn [fst snd]. f_equal. f_equal. exact (proj1 (same_row_at m _ _ _ (Hr k m Em))).
  Qed.
End Alike.

(** The undeformed member lengths and areas are those of the model, so that the
    entries depend on the analysis object through the responses alone. *)
Lemma J_entry_like c ms a0 an j U i k : same_setup a0 an -> rows_alike c ms a0 an -> J_entry c ms an j U i k = J_entry c ms a0 j U i k.
Proof.
  intros (_ & _ & HD & Hf & _) Hs. unfold J_entry. rewrite HD, Hf. destruct (Nat.eqb i _); [reflexivity|]. destruct (Nat.eqb k _); [reflexivity|].
  unfold K_entry. apply rsum_ext. intros [k' m] Hin. apply enum_In in Hin. unfold mem_K, axial_of, force_of. cbn [fst snd].
  destruct (same_row_at m _ _ (stretch_of c U m - 1) (Hs k' m Hin)) as [-> ->]. reflexivity.
Qed.

Section Like.
  Variables (c : ctx R) (ms : list (member R)) (a0 : analysis R) (V0 : list R) (j : Z) (Vmax : R).
  Hypotheses (Hok : truss_ok c ms) (Hsz : sizes_ok c ms a0) (Hld : loads_ok c a0) (Hpr : props_ok c ms a0)
    (HV0 : length V0 = S (c_ndof1 c)) (Hf0 : gather (concat (a_forces a0)) (a_DOF1 a0) = Ok (a_f0red a0))
    (Hj : (1 <= Z.abs j <= Z.of_nat (S (c_ndof1 c)))%Z).
  Notation n := (S (c_ndof1 c)).

  (** The function being solved and its matrix, evaluated from [a0]. *)
  Definition F0 (V : list R) : list R := value (f_ext (equilibrium c) V0 j Vmax false V a0).
  Definition J0 (V : list R) : list (list R) := value (dfdx (stiffness c) j V a0).

  Lemma like_ok an : alike c ms a0 an -> sizes_ok c ms an /\ loads_ok c an /\ props_ok c ms an /\ length (a_f0red an) = c_ndof1 c.
  Proof.
    intros ((_ & _ & HD & Hf & Hc & Ho & _) & Hs & Est). split; [exact Hs|].
    split; [unfold loads_ok in *; rewrite Hc, Ho; exact Hld|]. split; [eapply alike_props; eassumption|].
    rewrite Hf. apply gather_length in Hf0. pose proof Hsz as (_ & _ & _ & _ & _ & _ & _ & _ & _ & _ & Hn & _). lia.
  Qed.

  Lemma like_self : alike c ms a0 a0.
  Proof. apply alike_refl. exact Hsz. Qed.

  Lemma like_j an : alike c ms a0 an -> alike c ms a0 (set_j j an).
  Proof. intros H. exact H. Qed.

  Lemma like_value (V : list R) : length V = n -> exists x, py_get V (Z.abs j - 1) = Ok x.
  Proof.
    intros HV. unfold py_get, py_pos. rewrite HV. destruct (Z.leb_spec 0 (Z.abs j - 1)); [|lia].
    destruct (Z.ltb_spec (Z.abs j - 1) (Z.of_nat n)); [|lia]. cbn [andb bind].
    destruct (nth_error V (Z.to_nat (Z.abs j - 1))) eqn:E; [eauto|]. apply nth_error_None in E. lia.
  Qed.

  Lemma like_fn V an : length V = n -> alike c ms a0 an ->
    exists an', f_ext (equilibrium c) V0 j Vmax false V an = Ok (an', F0 V) /\ alike c ms a0 an'.
  Proof.
    intros HV Hl. destruct (like_ok an Hl) as (S1 & S2 & S3 & _).
    destruct (C15_evaluations_succeed c ms (set_j j an) Hok S1 S2 S3) as [Hev _].
    destruct (C15_evaluations_succeed c ms (set_j j a0) Hok Hsz Hld Hpr) as [Hev0 _].
    destruct (Hev V V0 false HV HV0) as (an' & g & He). destruct (Hev0 V V0 false HV HV0) as (a0' & g0 & He0).
    destruct Hl as (Hs & Hl2 & Est).
    pose proof (equil_alike c ms V V0 false false (set_j j a0) (set_j j an) a0' an' g0 g Hok Hsz S1 Hld Hs Est HV He0 He) as Eg.
    destruct (like_value V HV) as [x Ex]. exists an'. split.
    - unfold F0, f_ext. rewrite He, He0. cbn [bind]. rewrite Ex. cbn [bind value]. rewrite Eg. reflexivity.
    - pose proof (equilibrium_same _ _ _ _ _ _ _ He) as (Hsame & Hst & _).
      split; [eapply same_trans; [exact Hs|exact Hsame]|]. split; [eapply equilibrium_lengths; [exact Hok| |exact He]; exact S1|].
      eapply rows_trans; [exact Est|]. apply alike_state. exact (Hst eq_refl).
  Qed.

  Lemma F0_length V : length V = n -> length (F0 V) = n.
  Proof.
    intros HV. unfold F0, f_ext. destruct (C15_evaluations_succeed c ms (set_j j a0) Hok Hsz Hld Hpr) as [Hev0 _].
    destruct (Hev0 V V0 false HV HV0) as (a0' & g0 & He0). rewrite He0. cbn [bind].
    destruct (like_value V HV) as [x Ex]. rewrite Ex. cbn [bind value]. rewrite app_length, map_length.
    destruct (residual_formula _ _ _ _ _ _ _ _ Hok (Hsz : sizes_ok c ms (set_j j a0)) Hld HV He0) as (_ & L & _).
    cbn [a_DOF1 set_j] in L. pose proof Hsz as (_ & _ & _ & _ & _ & _ & _ & _ & _ & _ & Hn & _). cbn [length]. lia.
  Qed.

  Lemma like_dfn V an : length V = n -> alike c ms a0 an ->
    exists an', dfdx (stiffness c) j V an = Ok (an', J0 V) /\ alike c ms a0 an'.
  Proof.
    intros HV Hl. destruct (like_ok an Hl) as (S1 & S2 & S3 & S4). destruct (like_ok a0 like_self) as (_ & _ & _ & S4').
    destruct (dfdx_total c ms V an j Hok S1 S2 S3 HV S4 ltac:(lia)) as (an2 & Km & E & SU).
    destruct (dfdx_total c ms V a0 j Hok Hsz Hld Hpr HV S4' ltac:(lia)) as (a2 & Km0 & E0 & SU0).
    destruct (dfdx_entry c ms j V an an2 Km Hok S1 HV S4 ltac:(lia) E) as [[L1 L2] HE].
    destruct (dfdx_entry c ms j V a0 a2 Km0 Hok Hsz HV S4' ltac:(lia) E0) as [[L1' L2'] HE'].
    pose proof Hl as (Hs & _ & Est).
    assert (EU : a_U an2 = a_U a2).
    { destruct Hs as (_ & _ & HD & _ & _ & _ & _ & _ & HU & _). rewrite HD in SU.
      eapply scatter_same; [| |exact SU|exact SU0]; [|exact HU]. destruct S1 as (K1 & _). destruct Hsz as (K2 & _). congruence. }
    assert (EK : Km = Km0).
    { apply (nth_ext Km Km0 [] []); [congruence|]. intros i Hi. rewrite L1 in Hi.
      apply (vec_ext n); [apply L2; apply nth_In; lia|apply L2'; apply nth_In; lia|].
      intros k Hk. rewrite HE, HE', EU by assumption. apply J_entry_like; assumption. }
    exists an2. unfold J0. rewrite E0, E. cbn [value]. rewrite EK. split; [reflexivity|].
    unfold dfdx in E. mstep E. mstep E. destruct a1 as [an1 K]. mstep E. destruct (forallb _ _); [|discriminate E]. injection E as <- _.
    pose proof (stiffness_same _ _ _ _ _ Ha0) as (Hsame & Es).
    pose proof (gstiffness_sizes _ _ _ _ _ _ Hok (S1 : sizes_ok c ms (set_j j an)) Ha0) as Hs1.
    split; [eapply same_trans; [exact Hs|exact Hsame]|]. split; [exact Hs1|]. eapply rows_trans; [exact Est|]. apply alike_state. exact Es.
  Qed.

  (** Displacements at which the matrix is evaluated. *)
  Definition upd (V : list R) : list (v3 R) := match scatter (a_U a0) (a_DOF1 a0) (removelast V) with Ok U => U | _ => [] end.

  Lemma J0_entry V : length V = n -> sq n (J0 V) /\ forall i k, (i < n)%nat -> (k < n)%nat -> ent (J0 V) i k = J_entry c ms a0 j (upd V) i k.
  Proof.
    intros HV. destruct (like_ok a0 like_self) as (_ & _ & _ & S4').
    destruct (dfdx_total c ms V a0 j Hok Hsz Hld Hpr HV S4' ltac:(lia)) as (a2 & Km0 & E0 & SU0).
    destruct (dfdx_entry c ms j V a0 a2 Km0 Hok Hsz HV S4' ltac:(lia) E0) as [L HE'].
    unfold J0, upd. rewrite E0, SU0. cbn [value]. auto.
  Qed.

  Lemma J0_is_derivative V : length V = n -> regular c ms a0 (upd V) -> forall i k, (i < n)%nat -> (k < n)%nat ->
    is_derive (fun t : R => nth i (F0 (set_nth k t V)) 0) (nth k V 0) (ent (J0 V) i k).
  Proof.
    intros HV Hreg i k Hi Hk. destruct (like_ok a0 like_self) as (_ & _ & _ & S4').
    destruct (dfdx_total c ms V a0 j Hok Hsz Hld Hpr HV S4' ltac:(lia)) as (a2 & Km0 & E0 & SU0).
    unfold upd in Hreg. rewrite SU0 in Hreg.
    destruct (extended_tangent c ms V V0 false a0 j Vmax a2 Km0 Hok Hsz Hld HV HV0 Hf0 E0 Hreg) as [_ D].
    specialize (D i k Hi Hk). unfold J0. rewrite E0. exact D.
  Qed.
End Like.
