(** * A truss without loads under load control *)
From Coq Require Import List ZArith Bool Arith Lia Reals Lra Permutation.
Import ListNotations.
From Verif Require Import Num NumR TolFacts Vec Handlers Material Analysis Truss Equil Solver Run ListFacts SpecMaterial SpecMech SpecMechR SpecBuild EquilFacts
  MechFacts StiffFacts TangentFacts SpecState FrameFacts SpecSolver SolverFacts SpecRun RunFacts RecFacts ReachFacts SessionFacts PropMech RunProps BuildFacts BuildProps
  SpecBar PropBar SpecOne OneFacts OneRun SpecNewton BallFacts JacFacts NearFacts NewtonFacts EvalFacts SmallFacts SpecSmall SpecForm FormFacts PropForm SmallRun SpecUnloaded.
Local Open Scope R_scope.

(** ** Evaluations at rest *)
Section Eval.
  Variables (c : ctx R) (ms : list (member R)) (D1 : list nat) (solve : list (list R) -> list R -> list R) (j : Z).
  Notation d := (c_ndof1 c).
  Hypotheses (Hok : truss_ok c ms) (Hel : forall b, In b ms -> elastic_at_first b /\ 0 < EA b) (Hax : forall b, In b ms -> len (axis0 c b) <> 0)
    (Hsol : solves (S d) solve) (Hj : Z.abs j = Z.of_nat (S d)).
  Hypothesis Hrig : forall v : Z -> v3 R,
    (forall p l, nth_error (c_labels c) (p / 3) = Some l -> ~ In p D1 -> vget (v l) (p mod 3) = 0) ->
    (forall b, In b ms -> vdot (axis0 c b) (vsub (v (mb_b b)) (v (mb_a b))) = 0) -> forall l, In l (c_labels c) -> v l = vzero.

  Definition zero_loads (a : analysis R) : Prop :=
    loads_ok c a /\ (forall k, nth k (concat (a_fconst a)) 0 = 0) /\ (forall k, nth k (concat (a_forces a)) 0 = 0) /\ a_f0red a = repeat 0 d.
  Definition calm_core (a : analysis R) : Prop := sizes_ok c ms a /\ a_DOF1 a = D1 /\ locked_zero a /\ unyielded c ms a.
  Definition resting (a : analysis R) : Prop :=
    a_U a = zeros3 (length (c_labels c)) /\ a_force a = repeat 0 (length ms) /\
    a_stress a = repeat 0 (length ms) /\ a_r a = zeros3 (length (c_labels c)).
  Definition on_line (x : list R) : Prop := exists lam, x = repeat 0 d ++ [lam].

  Lemma line_length x : on_line x -> length x = S d.
  Proof. intros [l ->]. rewrite app_length, repeat_length. cbn. lia. Qed.

  Lemma same_loads a a' : same_setup a a' -> zero_loads a -> zero_loads a'.
  Proof. intros (_ & _ & _ & E1 & E2 & E3 & _). unfold zero_loads, loads_ok. now rewrite E1, E2, E3. Qed.
  Lemma same_core a a' : same_setup a a' -> a_state a' = a_state a -> sizes_ok c ms a' -> calm_core a -> calm_core a'.
  Proof.
    intros S Es Hs (Z & D & L & Un). split; [exact Hs|]. split; [destruct S as (_ & _ & -> & _); exact D|]. split.
    - eapply same_locked; [exact S| |exact L]. destruct Z as (A & B & _). congruence.
    - intros k b Hk El. unfold state_row. rewrite Es. exact (Un k b Hk El).
  Qed.

  (** Displacements prescribed as zero everywhere are zero. *)
  Lemma scatter_locked (a : analysis R) U : sizes_ok c ms a -> locked_zero a -> scatter (a_U a) (a_DOF1 a) (repeat 0 d) = Ok U -> U = zeros3 (length (c_labels c)).
  Proof.
    intros Hsz HL H. pose proof Hsz as (L1 & _ & _ & _ & _ & _ & _ & _ & Hd & Hd' & Hn & _).
    destruct (scatter_ok _ _ _ _ Hd ltac:(rewrite repeat_length; exact Hn) H) as (L & F1 & F2).
    apply vflat_inj. apply nth_error_ext. intros k. rewrite vflat_zeros. rewrite (nth_error_repeat (f0 : R)).
    destruct (in_dec Nat.eq_dec k (a_DOF1 a)) as [Hi|Hi].
    - pose proof (Hd' _ Hi) as Hk. apply In_nth_error in Hi. destruct Hi as [i Hi]. rewrite (F2 i k Hi).
      assert (i < length (a_DOF1 a))%nat by (apply nth_error_Some; congruence).
      rewrite (nth_error_repeat (0:R)). destruct (Nat.ltb_spec i d), (Nat.ltb_spec k (3 * length (c_labels c))); try lia. reflexivity.
    - rewrite (F1 k Hi). destruct (Nat.ltb_spec k (3 * length (c_labels c))) as [Hk|Hk].
      + apply HL; [exact Hi|]. rewrite L1. exact Hk.
      + apply nth_error_None. rewrite vflat_len, L1. exact Hk.
  Qed.

  Lemma line_firstn x : on_line x -> firstn d x = repeat 0 d /\ removelast x = repeat 0 d.
  Proof. intros [l ->]. rewrite removelast_last, firstn_app, firstn_all2, repeat_length by (rewrite repeat_length; lia). rewrite Nat.sub_diag. cbn. rewrite app_nil_r. auto. Qed.

  Lemma rest_eval x x0 w a a' g : on_line x -> calm_core a -> zero_loads a -> equilibrium c x x0 w a = Ok (a', g) ->
    calm_core a' /\ zero_loads a' /\ resting a' /\ g = repeat 0 d.
  Proof.
    intros Hx Hc Hz E. pose proof Hc as (Hsz & HD & HL & Hun). pose proof Hz as (Hlo & Hfc & Hfo & _).
    pose proof (line_length x Hx) as Lx. destruct (line_firstn x Hx) as [Ex _].
    destruct (residual_formula _ _ _ _ _ _ _ _ Hok Hsz Hlo Lx E) as (HS & Lg & _). rewrite Ex in HS. apply scatter_locked in HS; [|exact Hsz|exact HL].
    pose proof (equilibrium_same _ _ _ _ _ _ _ E) as (Sm & Hw & _).
    assert (Hsz' : sizes_ok c ms a') by (eapply gequilibrium_sizes; eassumption).
    destruct (internal_forces_any _ _ _ _ _ _ _ _ Hok Hsz E) as [I1 I2].
    assert (Hst : forall b, In b ms -> stretch_of c (a_U a') b - 1 = 0).
    { intros b Hb. rewrite HS. unfold stretch_of. rewrite axis_rest. field. exact (Hax b Hb). }
    assert (Hfor : a_force a' = repeat 0 (length ms) /\ a_stress a' = repeat 0 (length ms)).
    { assert (G : forall k, nth_error (a_force a') k = nth_error (repeat 0 (length ms)) k /\ nth_error (a_stress a') k = nth_error (repeat 0 (length ms)) k).
      { destruct Hsz' as (_ & _ & _ & _ & _ & _ & Ls & Lf & _). intros k. rewrite nth_error_repeat.
        destruct (Nat.ltb_spec k (length ms)) as [Hk|Hk]; [|split; apply nth_error_None; lia].
        destruct (nth_error ms k) as [b|] eqn:Eb; [|apply nth_error_None in Eb; lia].
        destruct (I1 k b Eb) as (s & t & st & A & U1 & _ & _ & U3 & U2). rewrite U2, U3. pose proof (nth_error_In _ _ Eb) as Hb.
        specialize (U1 0). rewrite (Hst b Hb) in U1. destruct (hooke_rest b _ (proj1 (Hel b Hb)) (Hun k b Eb) 0) as [st' E']. rewrite E' in U1. injection U1 as <- _ _. split; f_equal; ring. }
      split; apply nth_error_ext; intros k; apply (G k). }
    destruct Hfor as [Hfor Hstr].
    split; [|split; [eapply same_loads; eassumption|split; [split; [exact HS|split; [exact Hfor|split; [exact Hstr|]]]|]]].
    - destruct w; [|apply (same_core a); auto]. split; [exact Hsz'|]. split; [destruct Sm as (_ & _ & -> & _); exact HD|]. split.
      { eapply same_locked; [exact Sm| |exact HL]. destruct Hsz as (A & B & _). congruence. }
      intros k b Hk El. destruct (Hun k b Hk El) as (y & r & Er & Hy). unfold state_row in Er.
      destruct (0 <? c_nstatev c)%Z eqn:En; [|discriminate]. destruct (a_state a) as [sv|] eqn:Es; [|discriminate]. apply Z.ltb_lt in En.
      destruct (state_written _ _ _ _ _ _ _ _ Hok Hsz E En Es) as (sv' & E1 & _ & E3).
      destruct (E3 k b Hk) as (row & row' & lam & st & de & ds & G1 & G2 & G3 & _ & G5).
      destruct (I1 k b Hk) as (s & t & st' & A & _ & _ & J3 & _). rewrite G3 in J3. injection J3 as ->.
      pose proof (nth_error_In _ _ Hk) as Hb. numR. rewrite (Hst b Hb) in G5. assert (row = y :: 0 :: r) by congruence. subst row.
      destruct (hooke_state b (Some (y :: 0 :: r)) 0 (proj1 (Hel b Hb))) with (de := de) as (st2 & Eu & Hi & _).
      + intros _. exists y, r. auto.
      + intros _. rewrite Rmult_0_r, Rabs_R0. destruct (Hel b Hb) as [[_ L] _]. rewrite El in L. destruct L as (e & K & Sy & rest & -> & _ & _ & HS0). cbn [nth]. lra.
      + rewrite Eu in G5. injection G5 as _ _ ->. unfold state_row. apply Z.ltb_lt in En. rewrite En, E1, G2. exact (Hi El).
    - destruct Hsz' as (_ & _ & Lr & _). destruct Hok as (Hnd & _). apply nth_error_ext. intros i. unfold zeros3. rewrite nth_error_repeat.
      destruct (Nat.ltb_spec i (length (c_labels c))) as [Hi|Hi]; [|apply nth_error_None; lia].
      destruct (nth_error (c_labels c) i) as [l|] eqn:El; [|apply nth_error_None in El; lia]. pose proof (nth_error_In _ _ El) as Hl.
      pose proof (row_of_nth (c_labels c) (a_r a') vzero l Hnd Hl Lr) as Er. rewrite (idx_of_nth _ _ _ Hnd El), (I2 l Hl), vsum_map_0 in Er.
      + rewrite (nth_error_nth' _ vzero) by lia. rewrite <- Er. reflexivity.
      + intros [b f] Hin. apply in_combine_r in Hin. rewrite Hfor in Hin. apply repeat_spec in Hin. subst f. unfold pull. cbn [fst snd].
        destruct (direction c (a_U a') b) as [x1 x2 x3]. destruct (Z.eqb l (mb_b b)); [|destruct (Z.eqb l (mb_a b))]; unfold vscale, vneg, vmap, vzero; cbn; f_equal; ring.
    - assert (Hg : forall i, nth i g 0 = 0) by exact (rest_residual c ms a Hok Hsz Hlo (fun b H => proj1 (Hel b H)) Hun Hax Hfc x x0 w a' g _ Lx (or_intror Hfo) E HS).
      apply nth_ext with (d := 0) (d' := 0); [rewrite repeat_length, Lg; destruct Hsz as (_ & _ & _ & _ & _ & _ & _ & _ & _ & _ & Hn & _); congruence|].
      intros i _. rewrite Hg, nth_repeat. reflexivity.
  Qed.

  Lemma rest_matrix x a a' Km : on_line x -> calm_core a -> zero_loads a -> dfdx (stiffness c) j x a = Ok (a', Km) ->
    calm_core a' /\ zero_loads a' /\ sq (S d) Km /\ nonsingular (S d) Km /\
    forall mu, forall i, (i < S d)%nat -> row_times Km (repeat 0 d ++ [mu]) i = nth i (repeat 0 d ++ [mu]) 0.
  Proof.
    intros Hx Hc Hz H. pose proof Hc as (Hsz & HD & HL & Hun). pose proof Hz as (Hlo & Hfc & Hfo & Hf0).
    pose proof (line_length x Hx) as Lx. destruct (line_firstn x Hx) as [_ Ex].
    assert (Lf0 : length (a_f0red a) = d) by (rewrite Hf0; apply repeat_length).
    assert (Ht : exists a1 K, stiffness c (removelast x) (set_j j a) = Ok (a1, K) /\ a' = set_Kmod (a_Kmod a') a1).
    { pose proof H as G. unfold dfdx in G. mstep G. mstep G. destruct a1 as [a1 K]. mstep G. destruct (forallb _ a2); [|discriminate]. injection G as <- _. exists a1, K. split; [exact Ha0|reflexivity]. }
    destruct Ht as (a1 & K & HS & Ea). rewrite Ex in HS.
    assert (Hcj : calm_core (set_j j a)) by exact Hc. assert (Hzj : zero_loads (set_j j a)) by exact Hz.
    pose proof (stiffness_same _ _ _ _ _ HS) as (Sm & Es).
    assert (Hsz1 : sizes_ok c ms a1) by exact (gstiffness_sizes _ _ _ (set_j j a) _ _ Hok Hsz HS).
    assert (Hc1 : calm_core a') by (rewrite Ea; change (calm_core a1); exact (same_core _ _ Sm Es Hsz1 Hcj)).
    assert (Hz1 : zero_loads a') by (rewrite Ea; change (zero_loads a1); exact (same_loads _ _ Sm Hzj)).
    assert (HU : a_U a' = zeros3 (length (c_labels c))).
    { rewrite Ea. cbn [set_Kmod a_U]. unfold stiffness in HS. apply bind_ok in HS. destruct HS as (b1 & Hsd & Ha0).
      destruct b1 as [[an1 Ux] lx]. apply bind_ok in Ha0. destruct Ha0 as (an2 & Hl & Ha0). apply bind_ok in Ha0. destruct Ha0 as (Kr & _ & Ha0). injection Ha0 as <- _.
      apply elem_loop_frame in Hl. destruct Hl as ((E1 & _) & _). apply (prepare_U _ _ _ _ _ _ _ _ d) in Hsd; [|reflexivity].
      destruct Hsd as [_ Hsd]. rewrite repeat_length in Hsd. destruct (Hsd eq_refl) as [Hsc _]. cbn [set_j a_U a_DOF1] in Hsc. apply scatter_locked in Hsc; [|exact Hsz|exact HL].
      rewrite <- Hsc. cbn in E1. first [exact E1|symmetry; exact E1]. }
    split; [exact Hc1|]. split; [exact Hz1|].
    destruct (dfdx_entry c ms j x a a' Km Hok Hsz Lx Lf0 ltac:(rewrite Lx; lia) H) as [Hsq HE]. split; [exact Hsq|]. split.
    - refine (rest_nonsingular c ms a j Hok Hsz Lf0 Hel Hun Hax Hj _ x a' Km _ Lx H HU). rewrite HD. exact Hrig.
    - intros mu i Hi. unfold row_times. rewrite app_length, repeat_length. cbn [length]. rewrite Nat.add_1_r, rsum_split.
      rewrite (rsum_ext _ (fun _ => 0)).
      2:{ intros k Hk. apply in_seq in Hk. rewrite app_nth1 by (rewrite repeat_length; lia). rewrite nth_repeat. ring. }
      assert (G : forall l : list nat, rsum (map (fun _ => 0) l) = 0) by (induction l as [|q l IH]; cbn [map rsum fold_right]; [reflexivity|unfold rsum in IH; rewrite IH; ring]). rewrite G. clear G.
      rewrite app_nth2 by (rewrite repeat_length; lia). rewrite repeat_length, Nat.sub_diag. cbn [nth]. change (nth d (nth i Km []) 0) with (ent Km i d). rewrite HE by lia.
      unfold J_entry. destruct (Nat.eqb_spec i d) as [->|Hne].
      + replace (Z.to_nat (Z.abs j - 1)) with d by lia. rewrite Nat.eqb_refl, app_nth2, repeat_length, Nat.sub_diag by (rewrite repeat_length; lia). cbn [nth]. ring.
      + rewrite Nat.eqb_refl, Hf0, nth_repeat, app_nth1, nth_repeat by (rewrite repeat_length; lia). ring.
  Qed.

  Lemma line_solution Km mu : sq (S d) Km -> nonsingular (S d) Km ->
    (forall mu i, (i < S d)%nat -> row_times Km (repeat 0 d ++ [mu]) i = nth i (repeat 0 d ++ [mu]) 0) -> solve Km (repeat 0 d ++ [mu]) = repeat 0 d ++ [mu].
  Proof.
    intros [Q1 Q2] Hns Hr. set (b := repeat 0 d ++ [mu]). assert (Lb : length b = S d) by (unfold b; rewrite app_length, repeat_length; cbn; lia).
    destruct (Hsol Km b Q1 Q2 Hns Lb) as [Ls Hs].
    apply nth_ext with (d := 0) (d' := 0); [congruence|]. rewrite Ls. intros i Hi.
    assert (Hz : nth i (map2 Rminus (solve Km b) b) 0 = 0).
    { apply (Hns (map2 Rminus (solve Km b) b)); [rewrite map2_len; lia| |exact Hi].
      intros k Hk. transitivity (row_times Km (solve Km b) k - row_times Km b k); [|rewrite Hs by exact Hk; unfold b; rewrite Hr by exact Hk; ring].
      assert (Lm : length (map2 Rminus (solve Km b) b) = S d) by (rewrite map2_len; lia). unfold row_times. rewrite Lm, Ls, Lb. rewrite <- rsum_minus. apply rsum_ext. intros q Hq. apply in_seq in Hq.
      rewrite nth_map2 by lia. ring. }
    rewrite nth_map2 in Hz by lia. lra.
  Qed.

  (** ** The path follower *)
  Definition calm_at (a : analysis R) : Prop := calm_core a /\ zero_loads a.

  Lemma line_f_ext x x0 xmax w a a' v : on_line x -> calm_at a -> f_ext (equilibrium c) x0 j xmax w x a = Ok (a', v) ->
    calm_at a' /\ resting a' /\ exists r, v = repeat 0 d ++ [r].
  Proof.
    intros Hx [Hc Hz] H. apply commit_same in H. destruct H as (gr & xj & Hg & _ & ->).
    destruct (rest_eval x x0 w (set_j j a) a' gr Hx Hc Hz Hg) as (H1 & H2 & H3 & ->). split; [split; assumption|]. split; [exact H3|].
    eexists. f_equal. clear. induction d as [|k IH]; [reflexivity|]. cbn [repeat map]. rewrite IH. f_equal. numR. ring.
  Qed.

  Lemma line_trace x0 xmax : forall ts x s t, on_line x -> calm_at s ->
    trace solve (f_ext (equilibrium c) x0 j xmax false) (dfdx (stiffness c) j) x s (ts ++ [t]) -> on_line (it_x t) /\ calm_at (it_s t) /\ resting (it_s t).
  Proof.
    assert (Hit : forall x s t, on_line x -> calm_at s -> iterate solve (f_ext (equilibrium c) x0 j xmax false) (dfdx (stiffness c) j) x s t ->
      on_line (it_x t) /\ calm_at (it_s t) /\ resting (it_s t)).
    { intros x s t Hx [Hc Hz] (s1 & Km & s2 & fv & E1 & E2 & E3 & E4 & E5).
      destruct (rest_matrix x s s1 Km Hx Hc Hz E1) as (C1 & Z1 & Hsq & Hns & Hr).
      destruct (line_f_ext _ _ _ _ _ _ _ Hx (conj C1 Z1) E2) as (C2 & _ & r & ->).
      assert (Eo : map fopp (repeat 0 d ++ [r]) = repeat 0 d ++ [- r]).
      { rewrite map_app. f_equal. clear. induction d as [|k IH]; [reflexivity|]. cbn [repeat map]. rewrite IH. f_equal. numR. ring. }
      rewrite Eo, (line_solution Km (- r) Hsq Hns Hr) in E3. rewrite E3 in E4. destruct Hx as [l ->].
      assert (Hx' : on_line (it_x t)).
      { rewrite bcast2_same in E4 by (rewrite !app_length; reflexivity). injection E4 as <-. exists (l + - r). clear. induction d as [|k IH]; [reflexivity|]. cbn [repeat app map2]. rewrite IH. f_equal. numR. ring. }
      split; [exact Hx'|]. destruct (line_f_ext _ _ _ _ _ _ _ Hx' C2 E5) as (C3 & R3 & _). auto. }
    induction ts as [|t0 ts IH]; intros x s t Hx Hs H; cbn [app] in H; inversion H as [|? ? ? ? Hi Hr]; subst.
    - exact (Hit _ _ _ Hx Hs Hi).
    - destruct (Hit _ _ _ Hx Hs Hi) as (H1 & H2 & _). exact (IH _ _ _ H1 H2 Hr).
  Qed.

  Variable argsortF : list R -> list nat.
  Variable cfg : pfcfg R.
  Hypothesis Hjf : cf_jfixed cfg = true.

  Lemma line_recycle x0 dxmax0 : on_line x0 -> forall fuel s r x stop, rc_j s = j -> calm_at (rc_an s) ->
    recycle solve argsortF (equilibrium c) (stiffness c) cfg x0 dxmax0 None fuel s = Ok (r, x, stop) ->
    on_line x /\ calm_at (rc_an r) /\ resting (rc_an r) /\ rc_j r = j.
  Proof.
    intros Hx0. induction fuel as [|fuel IH]; intros s r x stop Ej Hs H; [discriminate|].
    apply recycle_pass in H. destruct H as (xmax & ts & t & j' & valid & dxmax' & z' & b' & changed & Hp & H). cbv zeta in H.
    destruct Hp as (xs & Dx & q & i1 & v1 & (xj & dj & _ & _ & _ & Ht & _) & _ & Hxs & _ & _ & _ & Hj' & _). rewrite Hjf in Hj'. subst xs j'. rewrite Ej in *.
    destruct (line_trace _ _ _ _ _ _ Hx0 Hs Ht) as (H1 & H2 & H3).
    assert (G2 : calm_at (set_dVmax (rc_dxmax s) (it_s t))) by exact H2. assert (G3 : resting (set_dVmax (rc_dxmax s) (it_s t))) by exact H3.
    destruct H as [(_ & _ & -> & an3 & v & Hf & ->)|[(_ & _ & _ & -> & ->)|[(_ & _ & _ & _ & _ & _ & -> & ->)|(_ & _ & _ & H)]]]; cbn [rc_an rc_j].
    - destruct (line_f_ext _ _ _ _ _ _ _ H1 G2 Hf) as (F1 & F2 & _). auto.
    - auto.
    - auto.
    - apply IH in H; [exact H| |exact G2]. cbn [rc_j]. destruct (converged _ _ t); reflexivity.
  Qed.

  Definition calm_record (p : list R * analysis R) : Prop :=
    on_line (fst p) /\ calm_at (snd p) /\ resting (snd p) /\ a_Ured (snd p) = repeat 0 d.

  Lemma line_increments dxmax0 fuel : forall k s s', ps_j s = j -> on_line (ps_x s) -> calm_at (ps_an s) ->
    increments solve argsortF (equilibrium c) (stiffness c) cfg dxmax0 fuel k s = Ok s' ->
    exists recs, ps_res s' = ps_res s ++ recs /\ forall p, In p recs -> calm_record p.
  Proof.
    induction k as [|k IH]; intros s s' Ej Hx Hs H; cbn [increments] in H.
    { injection H as <-. exists []. rewrite app_nil_r. split; [reflexivity|intros p []]. }
    apply bind_ok in H. destruct H as ([s1 stop] & H1 & H).
    assert (G : ps_j s1 = j /\ ps_res s1 = ps_res s ++ [(ps_x s1, ps_an s1)] /\ calm_record (ps_x s1, ps_an s1)).
    { unfold increment in H1. cbv zeta in H1. rewrite Hjf, andb_false_r in H1. apply bind_ok in H1. destruct H1 as ([[r x] st] & Hr & H1). injection H1 as <- _.
      apply line_recycle in Hr; [|exact Hx|exact Ej|exact Hs]. destruct Hr as (R1 & R2 & R3 & R4). cbn [ps_j ps_res ps_x ps_an]. split; [exact R4|]. split; [reflexivity|].
      split; [exact R1|]. split; [exact R2|]. split; [exact R3|]. cbn [snd a_Ured set_lpf set_Ured set_Vred]. apply line_firstn, R1. }
    destruct G as (G1 & G2 & G3). destruct stop.
    { injection H as <-. exists [(ps_x s1, ps_an s1)]. split; [exact G2|]. intros p [<-|[]]. exact G3. }
    apply bind_ok in H. destruct H as (lim & _ & H). destruct lim.
    { injection H as <-. exists [(ps_x s1, ps_an s1)]. split; [exact G2|]. intros p [<-|[]]. exact G3. }
    apply IH in H; [|exact G1|apply G3|apply G3]. destruct H as (recs & E & Hr). exists ((ps_x s1, ps_an s1) :: recs). split; [rewrite E, G2, <- app_assoc; reflexivity|].
    intros p [<-|Hp]; [exact G3|exact (Hr p Hp)].
  Qed.

  Lemma line_path an du dlpf jp fuel pf recs : a_Ured an = repeat 0 d -> calm_at an ->
    pathfollow solve argsortF (equilibrium c) (stiffness c) (a_Ured an) an (DxVec [du; dlpf]) (Some j) jp cfg fuel = Ok pf ->
    ps_res pf = (a_Ured an ++ [f0], an) :: recs -> forall p, In p recs -> calm_record p.
  Proof.
    intros HU Hc H Hres. unfold pathfollow in H. cbv zeta in H. rewrite Hjf in H. cbn [negb] in H.
    apply line_increments in H; [|reflexivity|exists 0; cbn [ps_x]; rewrite HU; reflexivity|exact Hc].
    destruct H as (recs' & E & Hr). cbn [ps_res app] in E. rewrite Hres in E. injection E as ->. exact Hr.
  Qed.
End Eval.

(** ** Steps and sessions *)
Lemma history_zero lpfs (row : list R) s q : (forall v, In v row -> v = 0) -> history lpfs row s q = 0.
Proof.
  intros H. assert (Hn : forall k, nth k row 0 = 0) by (intros k; destruct (nth_in_or_default k row 0) as [Hi|E]; [exact (H _ Hi)|exact E]).
  unfold history. change (@f0 R NumR) with 0. assert (G : forall l x, x = 0 -> fold_left (fun x t => fadd x (fmul (nth t lpfs 0) (nth (3 * t + q) row 0))) l x = 0).
  { induction l as [|t l IH]; intros x E; [exact E|]. cbn [fold_left]. apply IH. rewrite Hn, E. numR. ring. }
  apply G. reflexivity.
Qed.
Lemma concat_zero (l : list (list R)) : (forall r, In r l -> forall v, In v r -> v = 0) -> forall k, nth k (concat l) 0 = 0.
Proof.
  intros H k. destruct (nth_in_or_default k (concat l) 0) as [Hi|E]; [|exact E]. apply in_concat in Hi. destruct Hi as (r & Hr & Hv). exact (H r Hr _ Hv).
Qed.

Section Steps.
  Variables (c : ctx R) (ms : list (member R)) (D1 : list nat) (rows : list (list R)) (w : nat).
  Notation d := (c_ndof1 c).
  Hypotheses (Hw : forall r, In r rows -> length r = w) (Hrows : length rows = length (c_labels c)) (Hzr : forall r, In r rows -> forall v, In v r -> v = 0).

  Lemma starts_calm lpfs k prev an : (3 * S k <= w)%nat -> calm_core c ms D1 prev -> step_starts rows lpfs k prev an -> calm_at c ms D1 an /\ a_Ured an = a_Ured prev.
  Proof.
    intros Hk Hc (_ & (S2 & S2') & S3 & S4 & S5). split; [|rewrite S5; reflexivity].
    pose proof (columns_len rows w Hw k Hk) as Hcol.
    assert (Hcz : forall r, In r (columns k rows) -> forall v, In v r -> v = 0).
    { intros r Hr v Hv. unfold columns in Hr. apply in_map_iff in Hr. destruct Hr as (row & <- & Hr). apply (Hzr row Hr).
      rewrite <- (firstn_skipn (3 * k) row). apply in_or_app. right. rewrite <- (firstn_skipn 3 (skipn (3 * k) row)). apply in_or_app. left. exact Hv. }
    assert (Hfr : forall r, In r (a_fconst an) -> length r = 3%nat /\ forall v, In v r -> v = 0).
    { intros r Hr. apply In_nth_error in Hr. destruct Hr as [i Hi]. assert (Hil : (i < length rows)%nat) by (rewrite <- S2; apply nth_error_Some; congruence).
      destruct (nth_error rows i) as [row|] eqn:E; [|apply nth_error_None in E; lia]. pose proof (nth_error_In _ _ E) as Hin.
      destruct (S2' _ _ E) as (fr & G1 & G2 & G3). assert (fr = r) by congruence. subst fr.
      split; [rewrite G2; apply Hcol; unfold columns; apply in_map_iff; exists row; auto|].
      intros v Hv. apply In_nth_error in Hv. destruct Hv as [q Hq]. assert (Hql : (q < length r)%nat) by (apply nth_error_Some; congruence).
      rewrite (G3 q Hql) in Hq. injection Hq as <-. apply history_zero. exact (Hzr row Hin). }
    split; [rewrite S5; exact Hc|].
    destruct Hc as (Hsz & _). assert (Hn : length (a_DOF1 prev) = d) by (destruct Hsz as (_ & _ & _ & _ & _ & _ & _ & _ & _ & _ & Hn & _); symmetry; exact Hn).
    assert (Hz : forall q, nth q (concat (columns k rows)) 0 = 0) by (apply concat_zero; exact Hcz).
    split; [split|split; [apply concat_zero; intros r Hr; apply Hfr, Hr|split]].
    - rewrite (concat_len 3); [rewrite S2, Hrows; reflexivity|]. intros r Hr. apply (Hfr r Hr).
    - rewrite S3, (concat_len 3) by exact Hcol. unfold columns. rewrite map_length, Hrows. reflexivity.
    - rewrite S3. exact Hz.
    - destruct (gather_nth _ _ _ S4) as [Lg Hg]. apply nth_ext with (d := 0) (d' := 0); [rewrite repeat_length; congruence|].
      intros i Hi. rewrite nth_repeat. rewrite Lg in Hi. pose proof (nth_nth_error (a_DOF1 prev) i 0%nat Hi) as Ei. destruct (Hg _ _ Ei) as [E _].
      rewrite (nth_error_nth' (concat (columns k rows)) 0) in E by (apply (Hg _ _ Ei)). rewrite Hz in E. exact (nth_error_nth _ _ _ E).
  Qed.

  Variables (solve : list (list R) -> list R -> list R) (argsortF : list R -> list nat) (j : Z) (st : settings R) (fuel : nat).
  Hypotheses (Hok : truss_ok c ms) (Hel : forall b, In b ms -> elastic_at_first b /\ 0 < EA b) (Hax : forall b, In b ms -> len (axis0 c b) <> 0)
    (Hsol : solves (S d) solve) (Hj : Z.abs j = Z.of_nat (S d)).
  Hypothesis Hrig : forall v : Z -> v3 R,
    (forall p l, nth_error (c_labels c) (p / 3) = Some l -> ~ In p D1 -> vget (v l) (p mod 3) = 0) ->
    (forall b, In b ms -> vdot (axis0 c b) (vsub (v (mb_b b)) (v (mb_a b))) = 0) -> forall l, In l (c_labels c) -> v l = vzero.
  Hypotheses (Hjf : s_jfixed st = true) (Hj0 : s_j0 st = Some j).

  Lemma line_steps : forall logs k prev lpfs pl, (3 * (k + length logs) <= w)%nat -> calm_core c ms D1 prev -> a_Ured prev = repeat 0 d ->
    steps_from argsortF solve c st rows fuel k prev lpfs pl logs ->
    forall lg, In lg logs -> (forall p, In p (lg_recs lg) -> calm_record c ms D1 p) /\ calm_core c ms D1 (lg_final lg) /\ a_Ured (lg_final lg) = repeat 0 d.
  Proof.
    induction logs as [|l logs IH]; intros k prev lpfs pl Hk Hc HU H lg Hin; [destruct Hin|]. cbn [steps_from length] in *. destruct H as (Hs & Hr & Hrest).
    destruct (starts_calm lpfs k prev (lg_start l) ltac:(lia) Hc Hs) as [Ha EU]. rewrite HU in EU.
    assert (G : (forall p, In p (lg_recs l) -> calm_record c ms D1 p) /\ calm_core c ms D1 (lg_final l) /\ a_Ured (lg_final l) = repeat 0 d).
    { destruct Hr as (incs & xl & pf & _ & _ & Hp & Hres & _). rewrite Hj0 in Hp.
      assert (Hrec : forall p, In p (lg_recs l) -> calm_record c ms D1 p).
      { exact (line_path c ms D1 solve j Hok Hel Hax Hsol Hj Hrig argsortF (pf_config st xl incs) Hjf _ _ _ _ _ _ _ EU Ha Hp Hres). }
      split; [exact Hrec|]. unfold lg_final. destruct (lg_recs l) as [|p0 rs] eqn:El.
      - cbn [last snd]. split; [apply Ha|exact EU].
      - assert (Hl : In (last (p0 :: rs) ([], lg_start l)) (p0 :: rs)).
        { destruct (exists_last (l := p0 :: rs)) as (q & z & ->); [discriminate|]. rewrite last_last. apply in_or_app. right. left. reflexivity. }
        destruct (Hrec _ Hl) as (_ & (Q1 & _) & _ & Q4). split; [exact Q1|exact Q4]. }
    destruct Hin as [<-|Hin]; [exact G|]. eapply IH; [| | |exact Hrest|exact Hin]; [lia| |].
    - exact (proj1 (proj2 G)).
    - exact (proj2 (proj2 G)).
  Qed.
End Steps.

(** ** The model *)
Section Model.
  Variables (argsortZ : list Z -> list nat) (argsortF : list R -> list nat) (solve : list (list R) -> list R -> list R).
  Variables (m : model R) (ns : list (Z * v3 R)) (ms : list (member R)) (bs : list (Z * list Z)) (fs : list (Z * list R)).
  Variables (mb : model R) (ub : built R) (nh : nodeH R) (eh : elemH R) (fh : forceH R).
  Notation c := (ctx_of mb ub nh eh).
  Notation D1 := (a_DOF1 (u_an ub)).
  Hypotheses (HA : argsort_ok argsortZ) (Hd : described m ns ms bs fs) (Hel : forall b, In b ms -> elastic_at_first b /\ 0 < EA b)
    (Hends : forall b p q, In b ms -> In (mb_a b, p) ns -> In (mb_b b, q) ns -> p <> q) (Hrig : rigid ns ms bs) (Hfs : no_loads fs)
    (Hb : build argsortZ m = Ok mb) (Eu : m_built mb = Some ub) (En : m_nodes mb = Some nh) (Ee : m_elems mb = Some eh) (Ef : m_forces mb = Some fh)
    (Hsol : solves (S (u_ndof1 ub)) solve).

  Lemma model_axes : forall b, In b ms -> len (axis0 c b) <> 0.
  Proof.
    destruct (build_reached _ _ _ _ _ _ _ HA Hd Hb) as (nh' & eh' & fh' & u' & ns' & B1 & B2 & B3 & B4 & Hns' & Hp & _).
    assert (nh' = nh) by congruence. subst nh'. rewrite B1 in Hns'. destruct Hns' as [N1 N2].
    intros b Hbm. unfold axis0. cbn [ctx_of c_labels c_coords]. rewrite N1, N2. apply sub_nonzero. destruct Hd as (_ & _ & _ & _ & _ & _ & _ & _ & Hmem).
    destruct (Hmem b Hbm) as (M1 & M2 & _). apply (Hends b); [exact Hbm| |].
    - eapply Permutation_in; [exact Hp|]. apply row_of_pair. eapply Permutation_in; [apply Permutation_sym, Permutation_map, Hp|exact M1].
    - eapply Permutation_in; [exact Hp|]. apply row_of_pair. eapply Permutation_in; [apply Permutation_sym, Permutation_map, Hp|exact M2].
  Qed.

  Lemma model_rigid : forall v : Z -> v3 R,
    (forall p l, nth_error (c_labels c) (p / 3) = Some l -> ~ In p D1 -> vget (v l) (p mod 3) = 0) ->
    (forall b, In b ms -> vdot (axis0 c b) (vsub (v (mb_b b)) (v (mb_a b))) = 0) -> forall l, In l (c_labels c) -> v l = vzero.
  Proof.
    destruct Hd as (Hns & Hbs & Hfo & (eh0 & He & Hms) & H2 & Hnod & Hml & H3 & Hmem).
    destruct (build_tables _ _ _ _ _ _ HA Hns Hbs Hfo Hnod H2 Hb) as (Mb & Mf & ns2 & w & Hns2 & Hp2 & _ & Hb' & _ & _ & _ & _ & _).
    rewrite En in Hns2. destruct Hns2 as [N1 N2].
    assert (Hlen : length ns2 = length ns) by (apply Permutation_length, Hp2).
    destruct (build_dofs _ _ _ _ HA Hb Hb') as (u & Eu' & HD1 & _).
    { unfold rows_for. rewrite !map_length. lia. }
    { intros r Hr. unfold rows_for in Hr. rewrite map_map in Hr. apply in_map_iff in Hr. destruct Hr as (l & <- & _).
      cbn [snd]. destruct (in_dec Z.eq_dec l (map fst bs)) as [Hi|Hi].
      - apply in_map_iff in Hi. destruct Hi as ([l' v] & E & Hi). cbn in E. subst l'.
        rewrite (row_for_In bs _ l v (proj1 Mb) Hi). apply H3. apply in_map_iff. exists (l, v). auto.
      - rewrite row_for_notin by exact Hi. reflexivity. }
    assert (u = ub) by congruence. subst u.
    assert (Hrow : forall b l, In b ms -> In l (map fst ns) -> In (l, row_of (c_labels c) (c_coords c) vzero l) ns).
    { intros b l Hbm Hl. cbn [ctx_of c_labels c_coords]. rewrite N1, N2. eapply Permutation_in; [exact Hp2|]. apply row_of_pair.
      eapply Permutation_in; [apply Permutation_sym, Permutation_map, Hp2|exact Hl]. }
    intros v Hv Hvb l Hl. apply Hrig.
    + intros l' q Hl' Hd3 Hne.
      assert (Hl2 : In l' (map fst ns2)) by (eapply Permutation_in; [apply Permutation_sym, Permutation_map, Hp2|exact Hl']).
      destruct (In_nth_error _ _ Hl2) as [i Hi].
      specialize (Hv (3 * i + q)%nat l'). replace ((3 * i + q) / 3)%nat with i in Hv by (apply (Nat.div_unique _ _ _ q); lia).
      replace ((3 * i + q) mod 3)%nat with q in Hv by (apply (Nat.mod_unique _ _ i q); lia). apply Hv.
      { cbn [ctx_of c_labels]. rewrite N1. exact Hi. }
      rewrite HD1. intros (r & Hr & Hr1).
      replace ((3 * i + q) / 3)%nat with i in Hr by (apply (Nat.div_unique _ _ _ q); lia).
      replace ((3 * i + q) mod 3)%nat with q in Hr1 by (apply (Nat.mod_unique _ _ i q); lia).
      unfold rows_for in Hr. rewrite map_map in Hr. cbn [snd] in Hr. rewrite (map_nth_error _ _ _ Hi) in Hr. injection Hr as <-.
      apply Hne. apply nth_error_nth with (d := 0%Z) in Hr1. exact Hr1.
    + intros b p q Hbm Hpn Hqn. destruct (Hmem b Hbm) as (M1 & M2 & _). rewrite <- (Hvb b Hbm). f_equal. unfold axis0.
      pose proof (Hrow b _ Hbm M1) as R1. pose proof (Hrow b _ Hbm M2) as R2.
      assert (Hu : forall l x y, In (l, x) ns -> In (l, y) ns -> x = y).
      { intros l0 x y. clear - Hnod. induction ns as [|[a v0] r IH]; [easy|]. cbn [map fst] in Hnod. inversion Hnod as [|? ? Hni Hnd]; subst.
        assert (G : forall z, In (a, z) r -> False) by (intros z Hz; apply Hni, in_map_iff; exists (a, z); auto).
        intros [E|Hx] [E'|Hy].
        - congruence.
        - injection E as -> _. destruct (G _ Hy).
        - injection E' as -> _. destruct (G _ Hx).
        - exact (IH Hnd Hx Hy). }
      rewrite (Hu _ _ _ R1 Hpn), (Hu _ _ _ R2 Hqn). reflexivity.
    + cbn [ctx_of c_labels] in Hl. rewrite N1 in Hl. eapply Permutation_in; [apply Permutation_map, Hp2|exact Hl].
  Qed.

  Lemma model_rows : (forall r, In r (e_rows fh) -> length r = e_width fh) /\ length (e_rows fh) = length (c_labels c) /\
    (forall r, In r (e_rows fh) -> forall v, In v r -> v = 0) /\ length (c_labels c) = length ns /\ truss_ok c ms /\
    calm_core c ms D1 (u_an ub) /\ a_Ured (u_an ub) = repeat 0 (u_ndof1 ub) /\
    forall a, In a (u_R ub) -> resting c ms a.
  Proof.
    pose proof Hb as Hb0.
    destruct (build_reached _ _ _ _ _ _ _ HA Hd Hb) as (nh' & eh' & fh' & u' & ns' & B1 & B2 & B3 & B4 & Hns' & Hp & _ & Hfa & Htr & _ & _ & _ & HU & HU0 & _ & HUr & Hre).
    assert (nh' = nh) by congruence. assert (eh' = eh) by congruence. assert (fh' = fh) by congruence. assert (u' = ub) by congruence. subst nh' eh' fh' u'.
    rewrite B3 in Hfa. destruct Hfa as (F1 & F2 & F3). rewrite Forall_forall in F3. rewrite B1 in Hns'. destruct Hns' as [N1 N2].
    destruct Hre as (Hsz & _ & _ & HL).
    assert (Ln : length (c_labels c) = length ns) by (cbn [ctx_of c_labels]; rewrite N1, map_length; apply Permutation_length, Hp).
    split; [exact F3|]. split; [rewrite F2; unfold rows_for; rewrite !map_length; cbn [ctx_of c_labels]; rewrite N1, map_length; reflexivity|].
    split.
    { intros r Hr v Hv. rewrite F2 in Hr. unfold rows_for in Hr. rewrite map_map in Hr. apply in_map_iff in Hr. destruct Hr as (l & <- & _). cbn [snd] in Hv.
      destruct (in_dec Z.eq_dec l (map fst fs)) as [Hi|Hi].
      - clear - Hv Hfs Hi. revert Hv Hi. revert Hfs. generalize (repeat (f0 : R) (e_width fh)). intros dflt Hfs. unfold no_loads in Hfs. revert Hfs.
        induction fs as [|[l' v'] r IH]; intros Hfs Hv Hi; [destruct Hi|]. unfold row_for in *. cbn [find fst] in *. cbn in Hv.
        destruct (Z.eqb_spec l l') as [->|Hne]; [exact (Hfs l' v' (or_introl eq_refl) v Hv)|].
        apply IH; [intros l0 r0 H0; apply (Hfs l0); right; exact H0|exact Hv|]. destruct Hi as [E|Hi]; [cbn in E; congruence|exact Hi].
      - rewrite row_for_notin in Hv by exact Hi. exact (repeat_spec _ _ _ Hv). }
    split; [exact Ln|]. split; [exact Htr|].
    destruct (build_inv _ _ _ Hb0) as (nh0 & eh1 & nh1 & bh & fh1 & D0 & D1' & an1 & E1 & E2 & Ef' & Eb & Eo & C1 & C2 & Hd0 & Hd1 & Han & Em). cbv zeta in *.
    split; [|split; [exact HUr|]].
    - split; [exact Hsz|]. split; [reflexivity|]. split; [exact HL|]. apply unstrained_unyielded.
      intros k b Hk El. pose proof Hd as (_ & _ & _ & (eh0 & He & Hms) & _). assert (eh0 = eh1) by congruence. subst eh0.
      pose proof Hms as (Hlab & _). assert (Lel : length (el_labels eh1) = length ms) by (rewrite Hlab; apply map_length).
      assert (Hx2 : existsb (Z.eqb 2) (el_mtype eh1) = true).
      { apply existsb_exists. exists 2%Z. split; [|reflexivity]. destruct Hms as (_ & _ & Ht & _). rewrite Ht. apply in_map_iff. exists b. rewrite El. split; [reflexivity|]. eapply nth_error_In, Hk. }
      rewrite Hx2 in *. unfold analysis_build in Han. apply bind_ok in Han. destruct Han as (ur & _ & Han). injection Han as <-.
      pose proof Eu as Eu2. rewrite Em in Eu2. cbn [m_built] in Eu2. injection Eu2 as <-.
      exists []. unfold state_row. rewrite Em. cbn. rewrite Lel. rewrite nth_error_repeat. destruct (Nat.ltb_spec k (length ms)); [reflexivity|]. assert (k < length ms)%nat by (apply nth_error_Some; congruence). lia.
    - intros a Ha. pose proof Eu as Eu2. rewrite Em in Eu2. cbn [m_built] in Eu2. injection Eu2 as <-. cbn [u_R] in Ha. destruct Ha as [<-|[]].
      unfold resting. cbn [a_U a_force a_stress a_r set_lpf set_fconst set_forces]. cbn [u_an] in HU. rewrite HU, Ln. split; [reflexivity|].
      unfold analysis_build in Han. apply bind_ok in Han. destruct Han as (ur & _ & Han). injection Han as <-. cbn [a_force a_stress a_r].
      pose proof Hd as (_ & _ & _ & (eh0 & He & Hms) & _). assert (eh0 = eh1) by congruence. subst eh0. destruct Hms as (-> & _). rewrite map_length. split; [reflexivity|]. split; [reflexivity|].
      exact HU.
  Qed.

  Lemma session_calm m1 : session argsortF solve argsortZ (load_control (S (u_ndof1 ub)) (e_width fh)) m m1 ->
    exists u, m_built m1 = Some u /\ sound ms mb m1 /\ calm_core c ms D1 (u_an u) /\ a_Ured (u_an u) = repeat 0 (u_ndof1 ub) /\
      forall a, In a (u_R u) -> resting c ms a.
  Proof.
    destruct model_rows as (M1 & M2 & M3 & M4 & M5 & M6 & M7 & M8).
    intros S. induction S as [m' H|m1 fuel m2 out S IH HP H|m1 st S IH E].
    - assert (m' = mb) by congruence. subst m'. exists ub. split; [exact Eu|]. split; [|auto].
      destruct (sound_session argsortZ argsortF solve (fun _ => True) _ _ _ _ _ _ HA Hd (s_build _ _ _ _ _ _ H)) as (mb' & Hb' & Hs). assert (mb' = mb) by congruence. subst mb'. exact Hs.
    - destruct IH as (u & Eu1 & Hs & Hc & HU & HR).
      pose proof (sound_run argsortF solve _ _ _ _ _ _ Hs H) as Hs2.
      destruct (run_logs argsortF solve _ _ _ _ _ _ Hs H) as (nh' & eh' & ub' & u0 & fh' & r0 & rest & u' & X1 & X2 & X3 & X4 & X5 & X6 & X7 & X8 & X9 & X10 & HH).
      assert (nh' = nh) by congruence. assert (eh' = eh) by congruence. assert (ub' = ub) by congruence. assert (u0 = u) by congruence.
      assert (fh' = fh) by (destruct Hs as (_ & _ & _ & Hf & _); congruence). subst nh' eh' ub' u0 fh'. cbv zeta in HH.
      destruct HP as (P1 & (j & P2 & P3) & P4). exists u'. split; [exact X7|]. split; [exact Hs2|].
      destruct (s_nsteps (m_set m1) <=? 0)%Z eqn:L.
      + destruct HH as (B1 & _ & _ & ->). split; [exact Hc|]. split; [exact HU|]. rewrite B1. intros a [<-|Hin]; apply HR; [rewrite X6; left; reflexivity|exact Hin].
      + destruct HH as (logs & B1 & B2 & B3 & _ & _ & B6 & _). apply Z.leb_gt in L.
        pose proof (line_steps c ms D1 (e_rows fh) (e_width fh) M1 M2 M3 solve argsortF j (m_set m1) fuel M5 Hel model_axes Hsol P3 model_rigid P1 P2 logs 0%nat _ _ _
          ltac:(rewrite B1; cbn [Nat.add]; exact P4) (Hc : calm_core c ms D1 (set_lpf f0 (set_Vred (a_Ured (u_an u) ++ [f0]) (u_an u)))) HU B2) as Hlog.
        destruct logs as [|l0 logs]; [cbn in B1; lia|].
        assert (Hl : In (last (l0 :: logs) l0) (l0 :: logs)).
        { destruct (exists_last (l := l0 :: logs)) as (q & z & ->); [discriminate|]. rewrite last_last. apply in_app_iff. right. left. reflexivity. }
        rewrite (B6 l0). split; [apply (Hlog _ Hl)|]. split; [apply (Hlog _ Hl)|].
        rewrite B3. intros a [<-|Hin]; [apply HR; rewrite X6; left; reflexivity|].
        apply in_app_iff in Hin. destruct Hin as [Hin|Hin].
        * apply HR. rewrite X6 in *. clear - Hin. revert r0 Hin. induction rest as [|y rest IH]; intros r0 Hin; [contradiction|].
          cbn [removelast] in Hin. destruct Hin as [<-|Hin]; [left; reflexivity|right; apply IH, Hin].
        * apply in_concat in Hin. destruct Hin as (rs & Hrs & Hin). apply in_map_iff in Hrs. destruct Hrs as (lg & <- & Hlg).
          unfold lg_results in Hin. apply in_map_iff in Hin. destruct Hin as (p & <- & Hp). destruct (Hlog _ Hlg) as (Hrec & _). apply (Hrec _ Hp).
    - destruct IH as (u & Eu1 & Hs & Hc & HU & HR). exists u. split; [exact Eu1|]. split; [|auto].
      destruct Hs as (S1 & S2 & S3 & S4 & S5 & nh' & eh' & ub' & u' & X1 & X2 & X3 & X4 & X5 & X6 & G).
      unfold sound, with_settings. cbn [m_nodes m_elems m_bounds m_forces m_set m_built].
      do 4 (split; [assumption|]). split; [congruence|].
      exists nh', eh', ub', u'. do 6 (split; [assumption|]). cbv zeta in *. split; [|apply G].
      rewrite <- (proj1 G). unfold ctx_of. cbn [m_set]. rewrite E. reflexivity.
  Qed.
End Model.
