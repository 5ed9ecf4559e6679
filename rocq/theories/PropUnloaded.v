(** * C76: a truss without loads stays at rest *)
From Coq Require Import List ZArith Bool Arith Lia Reals Lra Permutation.
Import ListNotations.
From Verif Require Import Num NumR NumFix Vec Handlers Material Analysis Truss Equil Solver Run ListFacts SpecMech SpecMechR SpecBuild SpecState SpecRun SpecForm SpecNewton SpecSmall
  EditFacts SmallFacts SmallRun PropNewton SpecValid MirrorGauss PropTotal PropSmall RunFacts SessionFacts SpecUnloaded UnloadedRun.
Local Open Scope R_scope.

(** A truss that is no mechanism, with members of nonzero length and positive
    stiffness, elastic at first, and without loads: after build and any number of runs
    in load control, of any number of steps and with any other settings, every result
    has zero displacements, stresses and member forces, and the members pull on no
    node, so no support has a reaction.  This covers failed increments, recycles and
    results of several runs. *)
Theorem C76_at_rest : forall argsortZ argsortF solve m ns ms bs fs mb ub fh m1 u,
  argsort_ok argsortZ -> described m ns ms bs fs -> (forall b, In b ms -> elastic_at_first b /\ 0 < EA b) ->
  (forall b p q, In b ms -> In (mb_a b, p) ns -> In (mb_b b, q) ns -> p <> q) -> rigid ns ms bs -> no_loads fs ->
  build argsortZ m = Ok mb -> m_built mb = Some ub -> m_forces mb = Some fh -> solves (S (u_ndof1 ub)) solve ->
  session argsortF solve argsortZ (load_control (S (u_ndof1 ub)) (e_width fh)) m m1 -> m_built m1 = Some u ->
  forall a, In a (u_R u) -> at_ease (length ns) (length ms) a.
Proof.
  intros argsortZ argsortF solve m ns ms bs fs mb ub fh m1 u HA Hd Hel Hax Hrig Hfs Hb Eu Ef Hsol HS Eu1 a Ha.
  destruct (build_handlers _ _ _ Hb) as (nh & eh & En & Ee).
  destruct (session_calm argsortZ argsortF solve m ns ms bs fs mb ub nh eh fh HA Hd Hel Hax Hrig Hfs Hb Eu En Ee Ef Hsol m1 HS) as (u' & E & _ & _ & _ & HR).
  assert (u' = u) by congruence. subst u'. unfold at_ease. destruct (HR a Ha) as (-> & -> & -> & ->).
  destruct (model_rows argsortZ solve m ns ms bs fs mb ub nh eh fh HA Hd Hfs Hb Eu En Ee Ef Hsol) as (_ & _ & _ & -> & _).
  unfold zeros3. rewrite !repeat_length. repeat split; intros v Hv; exact (repeat_spec _ _ _ Hv).
Qed.
Print Assumptions C76_at_rest.

(** The corner without load, run twice with five and seven increments and the load
    factor locked. *)
Definition idle_settings (k : Z) : settings R :=
  Settings (Same k) false 4 (1/100) (1/2) 8 2 8 8 4 8 1 1 (Same (0%Z, None)) 0 (Some 3%Z) true true 2 1.
Definition idle : model R := Model (m_nodes corner) (m_elems corner) (m_bounds corner) (Some (ForceH [2]%Z 3 [[0; 0; 0]])) (idle_settings 5) None.
Definition idle_built : model R := match build argsort_ins idle with Ok m => m | _ => idle end.
Lemma idle_builds : build argsort_ins idle = Ok idle_built.
Proof. lazy. reflexivity. Qed.
Lemma idle_described : described idle corner_nodes corner_members corner_supports [(2%Z, [0; 0; 0])].
Proof.
  destruct corner_described as (H1 & H2 & _ & H4 & H5). split; [exact H1|]. split; [exact H2|]. split; [|split; [exact H4|exact H5]].
  split; [reflexivity|]. split; [reflexivity|]. repeat constructor.
Qed.

Example C76_meets : exists m2 out m3 out3 u, run (fun l => seq 0 (length l)) gauss idle_built 4 = Ok (m2, out) /\
  run (fun l => seq 0 (length l)) gauss (with_settings (idle_settings 7) m2) 4 = Ok (m3, out3) /\
  m_built m3 = Some u /\ forall a, In a (u_R u) -> at_ease 3 2 a.
Proof.
  destruct (m_built idle_built) as [ub|] eqn:Eu; [|lazy in Eu; discriminate]. destruct (m_forces idle_built) as [fh|] eqn:Ef; [|lazy in Ef; discriminate].
  assert (Hu : u_ndof1 ub = 2%nat) by (lazy in Eu; injection Eu as <-; reflexivity).
  assert (Hf : e_width fh = 3%nat) by (lazy in Ef; injection Ef as <-; reflexivity).
  assert (Hr : forall r, In r (e_rows fh) -> (3 <= length r)%nat) by (lazy in Ef; injection Ef as <-; intros r [<-|[<-|[<-|[]]]]; cbn; lia).
  assert (Hset : m_set idle_built = idle_settings 5) by (lazy; reflexivity).
  set (P := load_control (S (u_ndof1 ub)) (e_width fh)).
  assert (HP : forall k, P (idle_settings k)).
  { intros k. unfold P, load_control. cbn. rewrite Hu, Hf. split; [reflexivity|]. split; [exists 3%Z; split; reflexivity|lia]. }
  assert (HS : session (fun l => seq 0 (length l)) gauss argsort_ins P idle idle_built) by (apply s_build; exact idle_builds).
  assert (Hc : forall b, In b corner_members -> complete b) by (intros b [<-|[<-|[]]]; split; cbn; try discriminate; lia).
  assert (Hgo : forall m1 u k, session (fun l => seq 0 (length l)) gauss argsort_ins P idle m1 -> m_built m1 = Some u -> u_ndof1 u = 2%nat -> m_set m1 = idle_settings k ->
    m_forces m1 = Some fh -> exists m2 out, run (fun l => seq 0 (length l)) gauss m1 4 = Ok (m2, out)).
  { intros m1 u k H1 H2 H3 H4 H5. apply (C71_run_locked R _ argsort_ins (fun l => seq 0 (length l)) gauss P idle _ _ _ _ m1 u 4 argsort_ins_ok (fun l => Permutation_refl _) (proj1 gauss_sign_free) idle_described H1 Hc H2);
      rewrite ?H3, ?H4; try (cbn; lia); try reflexivity.
    - unfold usable. cbn. repeat split; try lia; try discriminate. intros _. exists 3%Z. split; [reflexivity|lia].
    - intros fh' r E Hin. cbn. assert (fh' = fh) by congruence. subst fh'. exact (Hr r Hin). }
  destruct (Hgo idle_built ub 5%Z HS Eu Hu Hset Ef) as (m2 & out & E2).
  assert (HS2 : session (fun l => seq 0 (length l)) gauss argsort_ins P idle m2) by (eapply s_run; [exact HS|rewrite Hset; apply HP|exact E2]).
  destruct (run_ok _ _ _ _ _ _ E2) as (v & _ & _ & _ & _ & _ & u2 & R1 & _ & _ & _ & _ & Em & _ & Rn & _). assert (v = ub) by congruence. subst v.
  set (m2' := with_settings (idle_settings 7) m2).
  assert (HS3 : session (fun l => seq 0 (length l)) gauss argsort_ins P idle m2') by (apply s_settings; [exact HS2|rewrite Em; cbn [m_set]; rewrite Hset; reflexivity]).
  destruct (Hgo m2' u2 7%Z HS3) as (m3 & out3 & E3); [unfold m2'; rewrite Em; reflexivity|congruence|reflexivity|unfold m2'; rewrite Em; exact Ef|].
  destruct (run_ok _ _ _ _ _ _ E3) as (v & _ & _ & _ & _ & _ & u3 & _ & _ & _ & _ & _ & Em3 & _).
  exists m2, out, m3, out3, u3. split; [exact E2|]. split; [exact E3|]. assert (Eu3 : m_built m3 = Some u3) by (rewrite Em3; reflexivity). split; [exact Eu3|].
  apply (C76_at_rest argsort_ins (fun l => seq 0 (length l)) gauss idle corner_nodes corner_members corner_supports [(2%Z, [0; 0; 0])] idle_built ub fh m3 u3 argsort_ins_ok idle_described corner_elastic corner_axes corner_rigid).
  - intros l r [E|[]] x Hx. injection E as _ <-. destruct Hx as [<-|[<-|[<-|[]]]]; reflexivity.
  - exact idle_builds.
  - exact Eu.
  - exact Ef.
  - apply C60_solver.
  - eapply s_run; [exact HS3|apply HP|exact E3].
  - exact Eu3.
Qed.
