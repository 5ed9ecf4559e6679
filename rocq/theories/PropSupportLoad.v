(** * C77: loads on supports do not matter *)
From Coq Require Import List ZArith Bool Arith Lia Permutation.
Import ListNotations.
From Verif Require Import Num NumR NumFix Vec Handlers Material Analysis Truss Equil Solver Run ListFacts SpecMech SpecMechR
  SpecBuild BuildFacts SpecState SpecRun SpecBar EquilFacts MechFacts EditFacts SpecSame SameFacts SameRun SameMech ExRun PropBar PropSame SpecSupportLoad SupportLoadRun.

(** Two models with the same nodes, elements, supports and settings, whose load tables
    give the same load to every free component in every step; at supported components
    the loads are arbitrary.  Whatever the user does after build with the one and
    returns, returns with the other, prints the same messages, and leaves the same
    results, result by result: displacements, member forces, stresses, internal forces,
    load factors, history variables, stiffness.  This holds in any arithmetic and for
    any linear solver. *)
Theorem C77_supported_loads : forall F (NF : Num F) argsortZ argsortF solve m m' ns ms bs fs fs' fh fh' mb mb' acts m1 out,
  argsort_ok argsortZ -> described m ns ms bs fs -> described m' ns ms bs fs' ->
  m_nodes m' = m_nodes m -> m_elems m' = m_elems m -> m_bounds m' = m_bounds m -> m_set m' = m_set m ->
  m_forces m = Some fh -> m_forces m' = Some fh' -> e_width fh' = e_width fh ->
  same_on_free (e_width fh) ns bs fs fs' ->
  build argsortZ m = Ok mb -> build argsortZ m' = Ok mb' ->
  enough_columns (e_width fh) (m_set m) -> Forall (enough_for (e_width fh)) acts ->
  play argsortF solve acts mb = Ok (m1, out) ->
  exists m1', play argsortF solve acts mb' = Ok (m1', out) /\
    exists u u', m_built m1 = Some u /\ m_built m1' = Some u' /\ u_lpf_end u' = u_lpf_end u /\
      Forall2 same_but_loads (u_R u) (u_R u').
Proof.
  intros F NF argsortZ argsortF solve m m' ns ms bs fs fs' fh fh' mb mb' acts m1 out HA Hd Hd' X1 X2 X3 X4 X5 X6 X7 Hs Hb Hb' Hc Hacts H.
  destruct (build_as argsortZ m m' ns ms bs fs fs' fh fh' mb mb' HA Hd Hd' X1 X2 X3 X4 X5 X6 X7 Hs Hb Hb') as (c & D & rows & rows' & Y1 & Y2 & Y3 & Y4 & Y5 & Y6 & Y7 & Y8).
  destruct (play_as argsortF solve c ms D Y1 rows rows' (e_width fh) Y2 Y3 Y4 Y5 Y6 acts Hacts mb mb' m1 out) as (m1' & E & Hm).
  - unfold enough_columns in *. rewrite Y8. exact Hc.
  - exact Y7.
  - exact H.
  - exists m1'. split; [exact E|]. destruct Hm as (_ & u & u' & nh & eh & f1 & f2 & U & U' & _ & _ & _ & _ & _ & _ & _ & _ & _ & _ & HR & HL & _).
    exists u, u'. split; [exact U|]. split; [exact U'|]. split; [exact HL|].
    eapply SameRun.Forall2_mono; [|exact HR]. intros a a' (Ea & ED & Ag). assert (ED' : a_DOF1 a' = D) by (rewrite Ea; exact ED). unfold same_but_loads. rewrite ED.
    repeat (split; [first [exact ED' | rewrite Ea; reflexivity]|]). exact Ag.
Qed.
Print Assumptions C77_supported_loads.

(** The two bars of [xr_at], two steps and two runs with a change of settings in
    between, in fixed-point arithmetic; the second model has loads on the supports 1
    and 5 and across the plane at node 2. *)
Definition propped_loads : list (Z * list fix_) :=
  [(5%Z, [q 5 1; q 6 1; q 7 1; q 1 2; f0; f1]); (2%Z, [f0; q (-1) 1; q 9 1; q 1 1; f0; q (-3) 1]); (1%Z, [f1; f1; f1; f0; f0; q 4 1])].
Definition propped : model fix_ :=
  Model (m_nodes (xr_at xs_st)) (m_elems (xr_at xs_st)) (m_bounds (xr_at xs_st)) (Some (ForceH (map fst propped_loads) 6 (map snd propped_loads))) xs_st None.

Lemma propped_described : described propped xr_ns xr_ms xr_bs propped_loads.
Proof.
  destruct (xr_described xs_st) as (H1 & H2 & _ & H4 & H5). split; [exact H1|]. split; [exact H2|]. split; [|split; [exact H4|exact H5]].
  split; [reflexivity|]. split; [reflexivity|]. repeat constructor.
Qed.
Lemma builds_if (m : model fix_) : match build argsort_ins m with Ok _ => true | _ => false end = true -> exists mb, build argsort_ins m = Ok mb.
Proof. destruct (build argsort_ins m) as [mb|e|]; [exists mb; reflexivity|discriminate|discriminate]. Qed.
Lemma propped_builds : exists mb', build argsort_ins propped = Ok mb'.
Proof. apply builds_if. vm_compute. reflexivity. Qed.
Lemma propped_same : same_on_free 6 (xr_ns (F := fix_)) xr_bs xr_fs propped_loads.
Proof.
  intros l p s Hl Hq Hf. cbn in Hl. destruct s as [|[|s]]; [| |rewrite !nth_overflow; [reflexivity|..]; destruct Hl as [<-|[<-|[<-|[]]]]; cbn -[Nat.mul]; lia].
  all: destruct Hl as [<-|[<-|[<-|[]]]]; destruct p as [|[|[|p]]]; try (clear - Hq; lia); try (exfalso; clear - Hf; lazy in Hf; discriminate Hf); reflexivity.
Qed.
Lemma propped_columns : enough_columns 6 xs_st /\ Forall (enough_for (F := fix_) 6) xs_acts.
Proof. split; [unfold enough_columns; cbn; lia|]. repeat constructor. Qed.
Lemma played_if (m : model fix_) acts k : xs_test (build_and_play argsort_fx gauss argsort_ins m acts) k = true ->
  exists mb m1 out u, build argsort_ins m = Ok mb /\ play argsort_fx gauss acts mb = Ok (m1, out) /\ m_built m1 = Some u /\ k <= length (u_R u).
Proof.
  intros T. destruct (xs_passed _ _ T) as (m1 & out & u & E & Eu & H). unfold build_and_play in E.
  destruct (build argsort_ins m) as [mb|e|]; [|discriminate E|discriminate E]. exists mb, m1, out, u. auto.
Qed.

Example C77_meets : exists mb mb' m1 m1' out u u',
  build argsort_ins (xr_at xs_st) = Ok mb /\ build argsort_ins propped = Ok mb' /\
  play argsort_fx gauss xs_acts mb = Ok (m1, out) /\ play argsort_fx gauss xs_acts mb' = Ok (m1', out) /\
  m_built m1 = Some u /\ m_built m1' = Some u' /\ Forall2 same_but_loads (u_R u) (u_R u') /\ 6 <= length (u_R u).
Proof.
  destruct (played_if (xr_at xs_st) xs_acts 6 xs_tested) as (mb & m1 & out & u & Eb & E & Eu & H).
  destruct propped_builds as (mb' & Eb').
  destruct (C77_supported_loads fix_ _ argsort_ins argsort_fx gauss (xr_at xs_st) propped xr_ns xr_ms xr_bs xr_fs propped_loads
    (ForceH (map fst xr_fs) 6 (map snd xr_fs)) (ForceH (map fst propped_loads) 6 (map snd propped_loads)) mb mb' xs_acts m1 out
    argsort_ins_ok (xr_described xs_st) propped_described eq_refl eq_refl eq_refl eq_refl eq_refl eq_refl eq_refl propped_same Eb Eb'
    (proj1 propped_columns) (proj2 propped_columns) E)
    as (m1' & E' & v & u' & V1 & V2 & _ & V3).
  rewrite Eu in V1. injection V1 as <-.
  exists mb, mb', m1, m1', out, u, u'. split; [exact Eb|]. split; [exact Eb'|]. split; [exact E|]. split; [exact E'|].
  split; [exact Eu|]. split; [exact V2|]. split; [exact V3|exact H].
Qed.
