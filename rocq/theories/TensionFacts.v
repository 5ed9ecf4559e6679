(** * A bar of elastic-plastic material under displacement control *)
From Coq Require Import List ZArith Bool Arith Lia Reals Lra Permutation.
Import ListNotations.
From Verif Require Import Num NumR Vec Handlers Material Analysis Truss Equil Solver Run ListFacts SpecMaterial SpecMech SpecMechR SpecBuild EquilFacts
  MechFacts SpecState SpecBar BarFacts SpecSolver SpecRun RunFacts ReachFacts SessionFacts RunProps SpecRunR PropRun
  BuildFacts RecFacts PathFacts SolverFacts SpecHistory HistoryFacts PropHistory PropBar SpecOne OneFacts OneRun.
Local Open Scope R_scope.

Lemma traced_mono {F} `{Num F} argsortF solve argsortZ (P Q : settings F -> Prop) m m1 recs : (forall st, P st -> Q st) ->
  traced argsortF solve argsortZ P m m1 recs -> traced argsortF solve argsortZ Q m m1 recs.
Proof. intros HPQ. induction 1; [now constructor|econstructor; eauto|now constructor]. Qed.

Lemma along_nth {F} `{Num F} (P : list F -> analysis F -> list F -> analysis F -> Prop) : forall recs x0 a0 q x a,
  along P x0 a0 recs -> nth_error recs q = Some (x, a) -> exists x' a', P x' a' x a.
Proof.
  induction recs as [|[x1 a1] recs IH]; intros x0 a0 q x a Ha Hq; [destruct q; discriminate|].
  destruct Ha as [H1 H2]. destruct q as [|q]; cbn in Hq; [injection Hq as <- <-; eauto|]. eapply IH; eassumption.
Qed.

Lemma axis_len i v : (i < 3)%nat -> len (along_axis i v) = Rabs v.
Proof.
  intros Hi. rewrite <- (sqrt_Rsqr_abs v). unfold len, Rsqr. destruct i as [|[|[|?]]]; try lia; cbn; f_equal; ring.
Qed.

Section Tension.
  Variables (argsortZ : list Z -> list nat) (argsortF : list R -> list nat) (solve : list (list R) -> list R -> list R).
  Variables (i : nat) (p : v3 R) (L E K Sy A F : R) (st : settings R).
  Hypotheses (HZ : argsort_ok argsortZ) (HF : sorts_pairs argsortF) (Hso : exact2 solve) (Hi : (i < 3)%nat) (HL : 0 < L).

  Notation mb := (Mb 1 1 2 UmatPl [E; K; Sy] [A]).
  Notation tm := (tension_model i p L E K Sy A F st).

  Lemma tension_described : described tm [(1%Z, p); (2%Z, vadd p (along_axis i L))] [mb]
    [(1%Z, [0; 0; 0]%Z); (2%Z, set_nth i 1%Z [0; 0; 0]%Z)] [(2%Z, set_nth i F [0; 0; 0])].
  Proof.
    unfold described. split; [split; reflexivity|]. split.
    { split; [reflexivity|]. split; [reflexivity|]. destruct i as [|[|[|?]]]; try lia; repeat constructor. }
    split. { split; [reflexivity|]. split; [reflexivity|]. destruct i as [|[|[|?]]]; try lia; repeat constructor. }
    split. { eexists. split; [reflexivity|]. repeat split. }
    split; [cbn; lia|].
    split. { repeat constructor; cbn; intros H; repeat destruct H as [H|H]; try discriminate; auto. }
    split. { repeat constructor; cbn; intros H; repeat destruct H as [H|H]; try discriminate; auto. }
    split. { cbn. intros r [<-|[<-|[]]]; destruct i as [|[|[|?]]]; try lia; reflexivity. }
    intros b [<-|[]]; cbn; repeat split; auto; discriminate.
  Qed.

  Lemma tension_builds : exists m1 u1, build argsortZ tm = Ok m1 /\ m_set m1 = with_nstatev 2 st /\ m_built m1 = Some u1 /\
    m_nodes m1 = m_nodes tm /\ a_DOF1 (u_an u1) = [(3 + i)%nat] /\ a_Ured (u_an u1) = [0] /\
    m_forces m1 = Some (ForceH [1; 2]%Z 3 [[0; 0; 0]; set_nth i F [0; 0; 0]]).
  Proof.
    destruct (sort_pair argsortZ 1 2 HZ ltac:(lia)) as [S1 S2].
    unfold build, tension_model. cbn [m_nodes m_elems m_bounds m_forces fix_nodes n_labels].
    rewrite S1. cbn [gather nth_error bind n_coords].
    unfold fix_bounds_U. cbn [b_nodes missing filter existsb Z.eqb Pos.eqb orb negb foldM bind n_labels].
    rewrite S1. cbn [gather nth_error bind b_vals uv_take].
    unfold fix_forces. cbn [e_nodes e_width e_rows missing filter existsb Z.eqb Pos.eqb orb negb foldM bind add_force length Nat.eqb repeat app n_labels].
    rewrite S2. cbn [gather nth_error bind].
    change (allclose [1; 2]%Z [1; 2]%Z) with (@Ok bool true). cbn [b_nodes e_nodes e_rows e_width bind negb el_mtype existsb Z.eqb Pos.eqb orb].
    destruct i as [|[|[|?]]]; try lia; eexists _, _; (split; [reflexivity|]); repeat split.
  Qed.

  (** What does not change during a session. *)
  Lemma tension_session P m1 : session argsortF solve argsortZ P tm m1 ->
    exists u1 nh eh, m_built m1 = Some u1 /\ m_nodes m1 = Some nh /\ m_elems m1 = Some eh /\
      s_nstatev (m_set m1) = 2%Z /\ n_labels nh = [1; 2]%Z /\ n_coords nh = [p; vadd p (along_axis i L)] /\
      a_DOF1 (u_an u1) = [(3 + i)%nat] /\
      m_forces m1 = Some (ForceH [1; 2]%Z 3 [[0; 0; 0]; set_nth i F [0; 0; 0]]).
  Proof.
    intros S. destruct (sound_session _ _ _ _ _ _ _ _ _ _ HZ tension_described S)
      as (mb' & Hb & S1 & S2 & S3 & S4 & S5 & nh & eh & ub & u & A1 & A2 & A3 & A4 & A5 & A6 & HH).
    cbv zeta in HH. destruct HH as (_ & _ & _ & _ & (_ & _ & HD & _) & _).
    destruct tension_builds as (m1' & u1' & B1 & B2 & B3 & B4 & B5 & B6 & B7). assert (m1' = mb') by congruence. subst m1'.
    assert (u1' = ub) by congruence. subst u1'.
    exists u, nh, eh. rewrite S1, S2, S4, S5, A1, A2, B2, HD, B5, B7. cbn [s_nstatev with_nstatev].
    rewrite B4 in A1. cbn in A1. injection A1 as <-. repeat split; auto.
  Qed.

  Lemma tension_axis0 c : c_labels c = [1; 2]%Z -> c_coords c = [p; vadd p (along_axis i L)] -> axis0 c mb = along_axis i L.
  Proof.
    intros El Ec. unfold axis0. cbn [mb_a mb_b]. rewrite El, Ec. cbn [row_of Z.eqb Pos.eqb].
    destruct i as [|[|[|?]]]; try lia; destruct p; unfold vsub, vadd, vmap2; cbn; numR; f_equal; ring.
  Qed.
  Lemma tension_axis c u : c_labels c = [1; 2]%Z -> c_coords c = [p; vadd p (along_axis i L)] ->
    axis c [vzero; along_axis i u] mb = along_axis i (L + u).
  Proof.
    intros El Ec. unfold axis, place. cbn [mb_a mb_b]. rewrite El, Ec. cbn [row_of Z.eqb Pos.eqb].
    destruct i as [|[|[|?]]]; try lia; destruct p; unfold vsub, vadd, vmap2; cbn; numR; f_equal; ring.
  Qed.

  Lemma one_axis (U : list (v3 R)) u : length U = 2%nat -> gather (vflat U) [(3 + i)%nat] = Ok [u] ->
    (forall k, ~ In k [(3 + i)%nat] -> (k < 3 * length U)%nat -> nth_error (vflat U) k = Some 0) -> U = [vzero; along_axis i u].
  Proof.
    intros HU HG H. destruct U as [|[a b c0] [|[d e f] [|? ?]]]; try discriminate.
    assert (G : forall k x, ~ In k [(3 + i)%nat] -> (k < 6)%nat -> nth_error [a; b; c0; d; e; f] k = Some x -> x = 0).
    { intros k x Hk Hk6 Hx. specialize (H k Hk Hk6). cbn [vflat flat_map app] in H. cbn in H, Hx. congruence. }
    destruct i as [|[|[|?]]]; try lia; cbn in HG; injection HG as <-;
      pose proof (G 0%nat a ltac:(cbn; lia) ltac:(lia) eq_refl); pose proof (G 1%nat b ltac:(cbn; lia) ltac:(lia) eq_refl);
      pose proof (G 2%nat c0 ltac:(cbn; lia) ltac:(lia) eq_refl);
      try pose proof (G 3%nat d ltac:(cbn; lia) ltac:(lia) eq_refl); try pose proof (G 4%nat e ltac:(cbn; lia) ltac:(lia) eq_refl);
      try pose proof (G 5%nat f ltac:(cbn; lia) ltac:(lia) eq_refl); subst; reflexivity.
  Qed.

  Hypothesis HF0 : F <> 0.

  Lemma tension_run m1 recs j n kl fuel :
    traced argsortF solve argsortZ locked_run tm m1 recs -> disp_control (m_set m1) j ->
    s_nsteps (m_set m1) = 1%Z -> s_incs (m_set m1) = Same n -> s_xlimit (m_set m1) = Same (kl, None) -> (-1 <= kl <= 2)%Z ->
    let adv := s_du (m_set m1) * IZR (Z.sgn j) in
    exists u1 u0, m_built m1 = Some u1 /\ a_Ured (u_an u1) = [u0] /\
      ((forall q, (1 <= q <= Z.to_nat n)%nat -> - L < u0 + INR q * adv) ->
       exists m2 out new u2, run argsortF solve m1 (S fuel) = Ok (m2, out) /\ (forall e, In e out -> ~ error_line e) /\
         traced argsortF solve argsortZ locked_run tm m2 (recs ++ new) /\ length new = Z.to_nat n /\
         m_built m2 = Some u2 /\ a_Ured (u_an u2) = [u0 + INR (Z.to_nat n) * adv] /\
         forall q a, nth_error new q = Some a ->
           let u := u0 + INR (S q) * adv in
           a_U a = [vzero; along_axis i u] /\ member_strain 0 a = u / L /\
           Rabs (a_lpf a * F - A * m_stress (plastic_out 0 a)) < pow10neg (s_ftol (m_set m1))).
  Proof.
    intros HT Hdc Hns Hin Hxl Hkl adv. pose proof (traced_session _ _ _ _ _ _ _ HT) as HS.
    destruct (tension_session _ _ HS) as (u1 & nh & eh & E1 & E2 & E3 & E4 & E5 & E6 & E7 & E8).
    destruct (driven_run argsortZ argsortF solve locked_run tm _ [mb] _ _ m1 u1 (3 + i)%nat (ForceH [1; 2]%Z 3 [[0; 0; 0]; set_nth i F [0; 0; 0]]) j (fun _ => n) (fun _ => kl) fuel
      HZ HF Hso tension_described) as (u0 & m2 & out & logs & D1 & D2 & D3 & D4); try eassumption.
    { intros b [<-|[]]. cbn. split; [discriminate|]. lia. }
    { intros s0 H0. apply H0. }
    { lia. }
    { cbn. rewrite Hns. intros r [<-|[<-|[]]]; cbn; [lia|]. destruct i as [|[|[|?]]]; try lia; cbn; lia. }
    { rewrite Hns. change (Z.to_nat 1) with 1%nat. intros k Hk. assert (k = 0)%nat as -> by lia. rewrite Hin, Hxl. cbn [at_step].
      split; [|auto]. destruct i as [|[|[|?]]]; try lia; cbn; exact HF0. }
    exists u1, u0. split; [exact E1|]. split; [exact D1|]. intros Hpos.
    pose proof D2 as (Hrun & Hll & _ & Hmore). rewrite Hns in Hll. destruct logs as [|lg [|? ?]]; cbn [length] in Hll; try lia.
    specialize (D3 0%nat lg eq_refl). cbn [incs_before seq map list_sum fold_right INR] in D3.
    replace (u0 + 0 * (s_du (m_set m1) * IZR (Z.sgn j))) with u0 in D3 by ring. fold adv in D3, D4.
    destruct D3 as (R1 & R2 & R3).
    assert (Hgood : good_part lg (lg_recs lg)) by (left; split; [reflexivity|exact R2]).
    assert (Hout : out = lg_out lg).
    { destruct Hmore as (u & nh' & eh' & fh' & r0 & rest & u' & _ & _ & _ & _ & _ & _ & _ & _ & _ & Ho & _). rewrite Ho. cbn. now rewrite app_nil_r. }
    destruct D4 as (u2 & F1 & F2 & F3). rewrite Hns in F3. change (Z.to_nat 1) with 1%nat in F3. cbn [incs_before seq map list_sum fold_right] in F3.
    rewrite Nat.add_0_r in F3.
    exists m2, out, (map snd (lg_recs lg)), u2. split; [exact Hrun|]. split; [rewrite Hout; exact R2|]. split.
    { replace (map snd (lg_recs lg)) with (map snd (concat [lg_recs lg])) by (cbn; now rewrite app_nil_r).
      eapply t_run; [exact HT| |exact D2|constructor; [exact Hgood|constructor]]. split; [apply Hdc|lia]. }
    split; [rewrite map_length; exact R1|]. split; [exact F1|]. split; [exact F3|].
    intros q a Hq. cbv zeta. rewrite nth_error_map in Hq. destruct (nth_error (lg_recs lg) q) as [[x a']|] eqn:Er; [|discriminate].
    cbn in Hq. injection Hq as ->. destruct (R3 q x a Er) as (G1 & G2 & r & G3 & G4).
    assert (Hq : (q < Z.to_nat n)%nat) by (rewrite <- R1; apply nth_error_Some; congruence).
    assert (Hu : - L < u0 + INR (S q) * adv) by (apply Hpos; lia).
    set (u := u0 + INR (S q) * adv) in *.
    (* displacements *)
    destruct (session_logs _ _ _ _ _ _ _ _ _ _ _ _ _ _ HZ tension_described HS D2)
      as (c & D0 & D1' & w & u1' & C1 & C2 & C3 & C4 & C5 & (nh' & eh' & C6 & C7 & Ec) & (mb0 & ub0 & B0 & B1 & _ & B3) & fh & C8 & C9 & C10 & C11).
    assert (u1' = u1) by congruence. assert (nh' = nh) by congruence. assert (eh' = eh) by congruence. subst u1' nh' eh'.
    assert (ED : D1' = [(3 + i)%nat]).
    { destruct tension_builds as (m1' & u1' & T1 & _ & T3 & _ & T5 & _). assert (m1' = mb0) by congruence. subst m1'. congruence. }
    destruct (C11 0%nat lg eq_refl) as ((_ & _ & Hrec & _) & Hran & _ & prev & lpfs & Hstart).
    destruct (Hrec x a (nth_error_In _ _ Er)) as [(Hsz & _ & HDa & Hlz) _]. rewrite ED in HDa.
    assert (El : c_labels c = [1; 2]%Z) by (rewrite Ec; exact E5).
    assert (Eco : c_coords c = [p; vadd p (along_axis i L)]) by (rewrite Ec; exact E6).
    assert (LU : length (a_U a) = 2%nat) by (destruct Hsz as (-> & _); rewrite El; reflexivity).
    assert (HU : a_U a = [vzero; along_axis i u]).
    { apply one_axis; [exact LU|exact G2|]. rewrite <- HDa. intros k Hk1 Hk2. apply (Hlz k Hk1 Hk2). }
    (* member *)
    assert (Hnd : forall u, m_built m1 = Some u -> (1 <= u_ndof1 u)%nat).
    { intros u' Eu'. assert (u' = u1) by congruence. subst u'. rewrite <- C4.
      destruct Hsz as (_ & _ & _ & _ & _ & _ & _ & _ & _ & _ & -> & _). rewrite HDa. cbn. lia. }
    destruct (C42_consistent _ _ _ _ _ _ _ _ _ _ _ _ _ _ HZ tension_described HS D2 Hnd) as (u1' & nh' & eh' & X1 & X2 & X3 & X4).
    assert (u1' = u1) by congruence. assert (nh' = nh) by congruence. assert (eh' = eh) by congruence. subst u1' nh' eh'.
    destruct (X4 lg (or_introl eq_refl)) as (rec2 & Y1 & Y2). rewrite (good_part_unique _ _ _ Y1 Hgood) in Y2. clear Y1 rec2.
    destruct (along_nth _ _ _ _ _ _ _ Y2 Er) as (x' & a' & [[[Hm Hnode] _]|(_ & Hjf & _)]); [|destruct Hdc as (Hjt & _); congruence].
    rewrite <- Ec in Hm, Hnode. destruct (Hm 0%nat mb eq_refl) as (s & t & sr & A' & _ & HA & Hst & Hss & Hfo).
    cbn in HA. injection HA as <-.
    assert (Estr : stretch_of c (a_U a) mb = (L + u) / L).
    { unfold stretch_of. rewrite HU, (tension_axis0 c El Eco), (tension_axis c u El Eco), !axis_len by exact Hi.
      rewrite !Rabs_pos_eq by lra. reflexivity. }
    split; [exact HU|]. split.
    { unfold member_strain. rewrite (nth_error_nth _ _ _ Hst), Estr. numR. field. lra. }
    (* equilibrium *)
    destruct (C26_equilibrium _ _ _ _ _ _ _ _ _ _ _ _ _ _ HZ tension_described HS D2 Hnd lg (or_introl eq_refl)) as (rec2 & Z1 & Z2).
    rewrite (good_part_unique _ _ _ Z1 Hgood) in Z2. clear Z1 rec2.
    destruct (along_nth _ _ _ _ _ _ _ Z2 Er) as (x2 & a2 & [[[Hgl Hres] _]|(_ & Hjf & _)]); [|destruct Hdc as (Hjt & _); congruence].
    assert (Hf2 : a_force a = [A * s]).
    { destruct Hsz as (_ & _ & _ & _ & _ & _ & _ & Hlf & _). cbn in Hlf.
      destruct (a_force a) as [|y [|? ?]]; cbn in Hlf; try lia. cbn in Hfo. injection Hfo as ->. reflexivity. }
    assert (Hr : row_of (c_labels c) (a_r a) vzero 2 = along_axis i (A * s)).
    { rewrite Hnode by (rewrite El; right; left; reflexivity). rewrite Hf2. cbn [combine map vsum fold_right].
      unfold pull. cbn [fst snd mb_a mb_b Z.eqb Pos.eqb]. unfold direction. rewrite HU, (tension_axis c u El Eco), axis_len by exact Hi.
      rewrite Rabs_pos_eq by lra.
      destruct i as [|[|[|?]]]; try lia; unfold vadd, vscale, vmap2, vmap; cbn; numR; f_equal; field; lra. }
    assert (Hrn : nth (3 + i) (vflat (a_r a)) f0 = A * s).
    { destruct Hsz as (_ & _ & Hlr & _). rewrite El in Hlr. cbn in Hlr.
      destruct (a_r a) as [|r1 [|r2 [|? ?]]]; cbn in Hlr; try lia. rewrite El in Hr. cbn [row_of Z.eqb Pos.eqb] in Hr. subst r2.
      destruct i as [|[|[|?]]]; try lia; destruct r1; reflexivity. }
    specialize (Hres (3 + i)%nat ltac:(rewrite LU; lia)). rewrite Hrn in Hres.
    assert (Hg : nth (3 + i) (a_g a) f0 = r).
    { cbn [gather] in G3. destruct (nth_error (a_g a) (3 + i)) eqn:Eg; [|discriminate]. cbn in G3. injection G3 as <-. now apply nth_error_nth. }
    rewrite Hg in Hres.
    assert (Hload : nth (3 + i) (concat (a_forces a)) f0 = F /\ nth (3 + i) (concat (a_fconst a)) f0 = 0).
    { assert (Hsame : a_forces a = a_forces (lg_start lg) /\ a_fconst a = a_fconst (lg_start lg)).
      { apply step_any in Hran. destruct Hran as (incs & xl & Hr').
        eapply (along_impl _ (fun _ _ _ _ => True) (fun _ a' =>
           a_forces a' = a_forces (lg_start lg) /\ a_fconst a' = a_fconst (lg_start lg))) in Hr'.
        - destruct Hr' as (_ & Hr' & _). exact (Hr' _ _ (nth_error_In _ _ Er)).
        - auto.
        - intros y0 b0 y1 b1 (K2 & K3) Hka. apply kany_same in Hka.
          destruct Hka as (Q1 & _ & _ & _ & Q5 & Q6 & _). split; [|exact Logic.I]. split; congruence. }
      destruct Hsame as [-> ->]. destruct Hstart as (_ & (Hl0 & Hsup) & -> & _).
      assert (fh = ForceH [1; 2]%Z 3 [[0; 0; 0]; set_nth i F [0; 0; 0]]) by congruence. subst fh. cbn [e_rows] in *.
      split; [destruct i as [|[|[|?]]]; try lia; reflexivity|].
      destruct (Hsup 0%nat _ eq_refl) as (f1' & K1 & K2 & _). destruct (Hsup 1%nat _ eq_refl) as (f2' & K3 & K4 & K5).
      destruct (a_fconst (lg_start lg)) as [|g1 [|g2 [|? ?]]]; cbn [length] in Hl0; try lia.
      cbn in K1, K3. injection K1 as <-. injection K3 as <-.
      assert (L2' : length g2 = 3%nat) by (rewrite K4; destruct i as [|[|[|?]]]; try lia; reflexivity).
      cbn [concat]. rewrite app_nth2; [|cbn in K2; lia]. cbn in K2. rewrite app_nil_r.
      replace (3 + i - length g1)%nat with i by lia. apply nth_error_nth. rewrite (K5 i) by lia. reflexivity. }
    destruct Hload as [Hl1 Hl2]. rewrite Hl1, Hl2 in Hres.
    unfold plastic_out, member_out, m_stress. cbn [fst snd]. rewrite (nth_error_nth _ _ _ Hss).
    replace (a_lpf a * F - A * s) with r; [exact G4|]. rewrite Hres. numR. ring.
  Qed.
End Tension.
