(** * C59: material type 2 in double precision, rounding included *)
From Coq Require Import List ZArith Bool Arith Lia Reals Lra SpecFloat.
Import ListNotations.
From Verif Require Import Num Material Double SpecDouble SpecRound Binary64 SpecBalance64 SpecPlast64 Plast64Facts
  Vec Handlers Analysis Truss Equil Solver Run EditFacts SpecMech SpecBuild SpecSolver SpecRun RunProps SpecHistory PropHistory NumFix ExRun PropBalance64.
Local Open Scope R_scope.

Lemma run64_inv mat h e outs : run64 mat (h ++ [e]) outs -> exists before o de t, outs = before ++ [o] /\ run64 mat h before /\
  umat_elplast_iso e de mat (Some [o_yield (last before zero64); o_epl (last before zero64)]) = Ok (o_stress o, t, Some [o_yield o; o_epl o]).
Proof.
  intros H. inversion H as [Hn|h' outs' e' de s t y p Hr Hu Hh].
  - now destruct h.
  - apply app_inj_tail in Hh as [-> ->]. exists outs', (Out64 s y p), de, t. auto.
Qed.

Lemma last_fin outs : Forall fin_out outs -> fin_out (last outs zero64).
Proof.
  intros H. destruct outs as [|a l] using rev_ind; [repeat split|]. rewrite last_last. apply Forall_app in H as [_ H]; now inversion H.
Qed.

Lemma grow64 E K Sy h : params64 E K Sy -> forall outs, run64 [E; K; Sy] h outs -> Forall fin_out outs ->
  (outs <> [] -> real Sy <= real (o_yield (last outs zero64))) /\ 0 <= real (o_yield (last outs zero64)).
Proof.
  intros HP outs H. induction H as [|h outs e de s t y p Hr IH Hu]; intros HF.
  - split; [congruence|change (0 <= real f0); rewrite real_0; lra].
  - apply Forall_app in HF as [HF Ho]. inversion Ho as [|? ? (Fs & Fy & Fp) _]; subst. cbn in Fs, Fy, Fp. specialize (IH HF) as [I1 I2].
    destruct (last_fin _ HF) as (_ & Ly & Lp).
    destruct (eval64 E K Sy e _ _ HP Ly I2 _ _ _ _ _ Hu Fs Fy Fp) as (G & _).
    rewrite last_last. cbn. pose proof HP as (_ & _ & _ & _ & _ & _ & HS).
    assert (real Sy <= real (yield64 Sy (o_yield (last outs zero64)))).
    { unfold yield64. destruct (feqb _ _) eqn:Ef; [lra|]. destruct outs as [|o1 r1]; [|apply I1; discriminate]. vm_compute in Ef. discriminate. }
    split; [intros _|]; lra.
Qed.

(** For every strain history, as long as no result overflows, each evaluation obeys the
    plastic law up to the rounding error of this one evaluation ([step64]); the yield
    stress is never below the initial one and never decreases, exactly.  Nothing adds up
    over the history. *)
Theorem C59_plastic : forall E K Sy h e outs, params64 E K Sy -> run64 [E; K; Sy] (h ++ [e]) outs -> Forall fin_out outs ->
  exists before o, outs = before ++ [o] /\ run64 [E; K; Sy] h before /\ step64 E K Sy e before o.
Proof.
  intros E K Sy h e outs HP Hr HF.
  destruct (run64_inv _ _ _ _ Hr) as (before & o & de & t & -> & Hb & Hu).
  apply Forall_app in HF as [HF Ho]. inversion Ho as [|? ? (Fs & Fy & Fp) _]; subst.
  destruct (grow64 _ _ _ _ HP _ Hb HF) as [G1 G2]. destruct (last_fin _ HF) as (_ & Ly & Lp).
  destruct (eval64 E K Sy e _ _ HP Ly G2 _ _ _ _ _ Hu Fs Fy Fp) as (H1 & H2 & H3 & H4 & H5 & H6).
  exists before, o. split; [reflexivity|]. split; [exact Hb|].
  assert (EY : yield64 Sy (o_yield (last before zero64)) = yield_then Sy before).
  { unfold yield64, yield_then. destruct before as [|o1 b1]; [reflexivity|].
    destruct (feqb _ _) eqn:Ef; [|reflexivity]. apply eqb_0 in Ef; [|exact Ly].
    destruct HP as (_ & _ & _ & _ & _ & _ & HS). specialize (G1 ltac:(discriminate)). lra. }
  rewrite EY in *.
  assert (HY : real Sy <= real (yield_then Sy before)).
  { unfold yield_then. destruct before as [|o1 b1]; [lra|apply G1; discriminate]. }
  unfold step64. cbv zeta. unfold epl_then. tauto.
Qed.
Print Assumptions C59_plastic.

(** ** Whole sessions *)
Lemma ok_inv2 (a b s t : b64) (l l' : list b64) : Ok (a, b, Some l) = Ok (s, t, Some l') -> a = s /\ b = t /\ l = l'.
Proof. intros H. injection H as ? ? ?. auto. Qed.
Lemma pad64 E K Sy rest (e de y p : b64) sr s t row :
  umat_elplast_iso e de (E :: K :: Sy :: rest) (Some (y :: p :: sr)) = Ok (s, t, Some row) ->
  exists y' p', row = y' :: p' :: sr /\ umat_elplast_iso e de [E; K; Sy] (Some [y; p]) = Ok (s, t, Some [y'; p']).
Proof.
  unfold umat_elplast_iso. cbn [item nth_error bind]. cbv zeta. destruct (fleb _ _); cbn [set_nth]; intros H; apply ok_inv2 in H as (<- & <- & <-); eauto.
Qed.

Lemma law64 E K Sy rest n h outs : law_run UmatPl (E :: K :: Sy :: rest) (repeat f0 n) h outs ->
  run64 [E; K; Sy] h (map (fun o => Out64 (fst o) (nth 0 (snd o) f0) (nth 1 (snd o) f0)) outs).
Proof.
  set (v := fun o : b64 * list b64 => Out64 (fst o) (nth 0 (snd o) f0) (nth 1 (snd o) f0)).
  induction 1 as [|h outs e s t row H IH Hu]; [constructor|]. rewrite map_app. cbn [map].
  assert (L : nth 0 (last (map snd outs) (repeat f0 n)) f0 = o_yield (last (map v outs) zero64) /\
              nth 1 (last (map snd outs) (repeat f0 n)) f0 = o_epl (last (map v outs) zero64)).
  { destruct outs as [|o1 outs1] using rev_ind.
    - cbn [map last]. rewrite !nth_repeat. split; reflexivity.
    - rewrite !map_app. cbn [map]. rewrite !last_last. split; reflexivity. }
  specialize (Hu f0). cbn [umat] in Hu. destruct (last (map snd outs) (repeat f0 n)) as [|y [|p sr]]; [discriminate Hu|discriminate Hu|].
  cbn [nth] in L. destruct L as [L1 L2]. destruct (pad64 _ _ _ _ _ _ _ _ _ _ _ _ Hu) as (y' & p' & -> & Hu').
  rewrite L1, L2 in Hu'. unfold v at 2. cbn [fst snd nth]. econstructor; [exact IH|exact Hu'].
Qed.

Lemma run64_prefix mat {X} (f : X -> b64) (g : X -> out64) : forall post pre,
  run64 mat (map f (pre ++ post)) (map g (pre ++ post)) -> run64 mat (map f pre) (map g pre).
Proof.
  induction post as [|x post IH] using rev_ind; intros pre H; [now rewrite app_nil_r in H|].
  rewrite app_assoc, !map_app in H. cbn [map] in H. rewrite <- !map_app in H.
  destruct (run64_inv _ _ _ _ H) as (outs' & o & de & t & E1 & Hr & _).
  apply app_inj_tail in E1. destruct E1 as [<- _]. apply IH. exact Hr.
Qed.

(** Every accepted increment of every run since build, without predictor: what it
    shows of a plastic member obeys the law up to the rounding of one evaluation, as
    long as the numbers shown of that member so far are finite. *)
Theorem C59_session : forall argsortZ (argsortF : list b64 -> list nat) solve m ns ms bs fs m1 pre a post k b E K Sy rest,
  params64 E K Sy -> argsort_ok argsortZ -> described m ns ms bs fs ->
  traced argsortF solve argsortZ no_predictor m m1 (pre ++ a :: post) ->
  (0 < s_nstatev (m_set m1))%Z -> nth_error ms k = Some b ->
  mb_law b = UmatPl -> mb_mat b = E :: K :: Sy :: rest ->
  Forall (fun a' => fin_out (plastic64 k a')) (pre ++ [a]) ->
  step64 E K Sy (member_strain k a) (map (plastic64 k) pre) (plastic64 k a) /\
  (forall a', In a' pre -> real (o_yield (plastic64 k a')) <= real (o_yield (plastic64 k a))).
Proof.
  intros argsortZ argsortF solve m ns ms bs fs m1 pre a post k b E K Sy rest HP HA Hd HT Hn Hb Hl Hm HF.
  pose proof (C52_history _ _ _ _ _ _ _ _ _ _ _ _ _ _ HA Hd HT Hn Hb) as H. rewrite Hl, Hm in H.
  apply law64 in H. rewrite map_map in H. change (run64 [E; K; Sy] (map (member_strain k) (pre ++ a :: post)) (map (plastic64 k) (pre ++ a :: post))) in H.
  replace (pre ++ a :: post) with ((pre ++ [a]) ++ post) in H by now rewrite <- app_assoc.
  apply run64_prefix in H. clear HT.
  assert (M : forall pre a, run64 [E; K; Sy] (map (member_strain k) (pre ++ [a])) (map (plastic64 k) (pre ++ [a])) ->
     Forall (fun a' => fin_out (plastic64 k a')) (pre ++ [a]) ->
     step64 E K Sy (member_strain k a) (map (plastic64 k) pre) (plastic64 k a)).
  { clear - HP. intros pre a H HF. rewrite !map_app in H. cbn [map] in H.
    destruct (C59_plastic _ _ _ _ _ _ HP H) as (before & o & Eo & _ & C).
    { change (Forall fin_out (map (plastic64 k) pre ++ map (plastic64 k) [a])). rewrite <- map_app. now apply Forall_map. }
    apply app_inj_tail in Eo as [<- <-]. exact C. }
  split; [exact (M _ _ H HF)|].
  revert a H HF. induction pre as [|a1 pre IH] using rev_ind; intros a H HF a' Ha; [destruct Ha|].
  destruct (M _ _ H HF) as ((_ & M2) & _). rewrite map_app in M2. cbn [map] in M2.
  assert (Ey : yield_then Sy (map (plastic64 k) pre ++ [plastic64 k a1]) = o_yield (plastic64 k a1)).
  { unfold yield_then. rewrite last_last. now destruct (map _ pre). }
  rewrite Ey in M2.
  apply in_app_iff in Ha as [Ha|[<-|[]]]; [|exact M2]. eapply Rle_trans; [|exact M2].
  apply IH; [|apply Forall_app in HF; apply HF|exact Ha]. eapply run64_prefix. exact H.
Qed.
Print Assumptions C59_session.

(** ** A history evaluated by the kernel: loading, unloading, reversed loading *)
Fixpoint go64 (mat h : list b64) (outs : list out64) : list out64 :=
  match h with
  | [] => outs
  | e :: h' =>
    match umat_elplast_iso e f0 mat (Some [o_yield (last outs zero64); o_epl (last outs zero64)]) with
    | Ok (s, _, Some [y; p]) => go64 mat h' (outs ++ [Out64 s y p])
    | _ => []
    end
  end.
Lemma go64_run mat h : forall h0 outs, run64 mat h0 outs -> go64 mat h outs <> [] -> run64 mat (h0 ++ h) (go64 mat h outs).
Proof.
  induction h as [|e h IH]; intros h0 outs Hr Hn; cbn [go64] in *; [now rewrite app_nil_r|].
  destruct (umat_elplast_iso _ _ _ _) as [[[s t] [[|y [|p [|? ?]]]|]]| |] eqn:Eu; try congruence.
  replace (h0 ++ e :: h) with ((h0 ++ [e]) ++ h) by (now rewrite <- app_assoc). apply IH; [|exact Hn]. econstructor; eassumption.
Qed.

(** The third evaluation yields and rounds, the fourth unloads, the last two yield in
    either direction. *)
Lemma pos64 (x : b64) : match sf x with S754_finite false _ _ => true | _ => false end = true -> 0 < real x /\ fin64 x.
Proof.
  destruct x as [[s|s| |[|] m e] Hx]; cbn [sf]; intros H; try discriminate H. split; [|exact I]. unfold real. cbn [val sf].
  rewrite Rmult_1_l. apply Rmult_lt_0_compat; [now apply IZR_lt|apply powerRZ_lt; lra].
Qed.
Definition xp_E : b64 := fofZ 210000.
Definition xp_K : b64 := q 100 3.
Definition xp_Sy : b64 := fofZ 250.
Definition xp_h : list b64 := [q 1 1000; q 1 900; q 1 300; q 1 350; q (-1) 100].

Example C59_meets : exists outs, params64 xp_E xp_K xp_Sy /\ run64 [xp_E; xp_K; xp_Sy] (xp_h ++ [q (-1) 200]) outs /\
    Forall fin_out outs /\
    map (fun i => feqb (o_epl (nth i outs zero64)) (o_epl (nth (i - 1) outs zero64))) [1; 2; 3; 4; 5]%nat = [true; false; true; false; false].
Proof.
  exists (go64 [xp_E; xp_K; xp_Sy] (xp_h ++ [q (-1) 200]) []).
  assert (T : forallb (fun o => match sf (o_stress o), sf (o_yield o), sf (o_epl o) with
                               | (S754_finite _ _ _|S754_zero _), (S754_finite _ _ _|S754_zero _), (S754_finite _ _ _|S754_zero _) => true
                               | _, _, _ => false end)
       (go64 [xp_E; xp_K; xp_Sy] (xp_h ++ [q (-1) 200]) []) = true) by (vm_cast_no_check (eq_refl true)).
  split.
  { destruct (pos64 xp_E) as [A1 A2]; [vm_cast_no_check (eq_refl true)|].
    destruct (pos64 xp_K) as [B1 B2]; [vm_cast_no_check (eq_refl true)|].
    destruct (pos64 xp_Sy) as [C1 C2]; [vm_cast_no_check (eq_refl true)|].
    destruct (pos64 (fadd xp_E xp_K)) as [D1 D2]; [vm_cast_no_check (eq_refl true)|].
    exact (conj A2 (conj B2 (conj C2 (conj D2 (conj A1 (conj (Rlt_le _ _ B1) C1)))))). }
  split; [apply (go64_run _ _ []); [constructor|]|].
  { intros N. assert (L : length (go64 [xp_E; xp_K; xp_Sy] (xp_h ++ [q (-1) 200]) []) = 6%nat) by (vm_cast_no_check (eq_refl 6%nat)).
    apply (f_equal (@length out64)) in N. change (length (go64 [xp_E; xp_K; xp_Sy] (xp_h ++ [q (-1) 200]) []) = 0%nat) in N. rewrite L in N. discriminate N. }
  split; [|vm_cast_no_check (eq_refl [true; false; true; false; false])].
  rewrite forallb_forall in T. apply Forall_forall. intros o Ho. specialize (T o Ho). clear Ho. destruct o as [[s s'] [y y'] [p p']].
  unfold fin_out, fin64. cbn [o_stress o_yield o_epl sf] in *. destruct s, y, p; try discriminate T; cbn; auto.
Qed.

(** Two steps of three increments with a plastic member that flows. *)
Example C59_session_meets : let st := xr_settings 8 8 false false None 8 3 2 in
  exists m1 m2 u b E K Sy pre a,
  argsort_ok argsort_ins /\ described (xr_at st) (xr_ns (F:=b64)) xr_ms xr_bs xr_fs /\
  build argsort_ins (xr_at st) = Ok m1 /\
  traced argsort_b gauss argsort_ins no_predictor (xr_at st) m2 (pre ++ [a]) /\ (0 < s_nstatev (m_set m2))%Z /\
  m_built m2 = Some u /\ tl (u_R u) = pre ++ [a] /\ length pre = 5%nat /\
  nth_error xr_ms 1 = Some b /\ mb_law b = UmatPl /\ mb_mat b = [E; K; Sy] /\ params64 E K Sy /\
  Forall (fun a' => fin_out (plastic64 1 a')) (pre ++ [a]) /\ nonzero (o_epl (plastic64 1 a)).
Proof.
  intros st.
  pose (nz := fun x : b64 => match sf x with S754_finite _ _ _ => true | _ => false end).
  pose (fn := fun x : b64 => match sf x with S754_finite _ _ _ | S754_zero _ => true | _ => false end).
  pose (fo := fun o => fn (o_stress o) && fn (o_yield o) && fn (o_epl o)).
  pose (test := fun (m1 m2 : model b64) (out : list msg) =>
    match m_built m2 with
    | Some u =>
      forallb (fun e => match e with MIncr => true | MRecycle => true | _ => false end) out &&
      (0 <? s_nsteps (m_set m1))%Z && negb (s_jpre (m_set m1)) && (0 <? s_nstatev (m_set m2))%Z &&
      (length (tl (u_R u)) =? 6)%nat && forallb (fun a => fo (plastic64 1 a)) (tl (u_R u)) &&
      nz (o_epl (plastic64 1 (last (tl (u_R u)) (u_an u))))
    | None => false
    end).
  assert (T : match build argsort_ins (xr_at st) with
              | Ok m1 => match run argsort_b gauss m1 40 with Ok (m2, out) => test m1 m2 out | _ => false end
              | _ => false end = true) by (vm_cast_no_check (eq_refl true)).
  destruct (build _ _) as [m1| |] eqn:Hb; try discriminate T.
  destruct (run _ _ _ _) as [[m2 out]| |] eqn:Hr; try discriminate T.
  unfold test in T. destruct (m_built m2) as [u|] eqn:Eu; [|discriminate T].
  rewrite !andb_true_iff, Nat.eqb_eq, !Z.ltb_lt, negb_true_iff in T. destruct T as ((((((T1 & T2) & T3) & T4) & T5) & T6) & T7).
  destruct (tl (u_R u)) as [|a0 r0 _] eqn:Et using rev_ind; [discriminate T5|].
  rewrite app_length in T5. cbn [length] in T5. rewrite last_last in T7.
  exists m1, m2, u, (Mb 9 2 5 UmatPl [q 1 1; q 1 10; q 1 50] [f1]), (q 1 1), (q 1 10), (q 1 50), r0, a0.
  split; [apply argsort_ins_ok|]. split; [apply xr_described|]. split; [reflexivity|]. split.
  { rewrite <- Et. eapply first_traced; [exact Hb|left; exact T3|exact T2|exact Hr| |exact Eu].
    intros e He. rewrite forallb_forall in T1. specialize (T1 e He). intros [X|X]; rewrite X in T1; discriminate T1. }
  split; [exact T4|]. split; [exact Eu|]. split; [exact Et|]. split; [lia|]. split; [reflexivity|]. split; [reflexivity|]. split; [reflexivity|].
  split.
  { destruct (pos64 (q 1 1)) as [A1 A2]; [vm_cast_no_check (eq_refl true)|].
    destruct (pos64 (q 1 10)) as [B1 B2]; [vm_cast_no_check (eq_refl true)|].
    destruct (pos64 (q 1 50)) as [C1 C2]; [vm_cast_no_check (eq_refl true)|].
    destruct (pos64 (fadd (q 1 1) (q 1 10))) as [D1 D2]; [vm_cast_no_check (eq_refl true)|].
    exact (conj A2 (conj B2 (conj C2 (conj D2 (conj A1 (conj (Rlt_le _ _ B1) C1)))))). }
  assert (N : forall x, fn x = true -> fin64 x) by (intros [[?|?| |? ? ?] ?] H; try discriminate H; exact I).
  split.
  - apply Forall_forall. intros a' Ha. rewrite forallb_forall in T6. specialize (T6 a' Ha). unfold fo in T6.
    rewrite !andb_true_iff in T6. destruct T6 as ((S1 & S2) & S3). split; [|split]; now apply N.
  - unfold nonzero. unfold nz in T7. destruct (sf (o_epl (plastic64 1 a0))); try discriminate T7. exact I.
Qed.
