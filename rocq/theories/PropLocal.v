(** * C64: nodes and bars only feel what is attached to them

    For any arithmetic, so also for rounded numbers, number by number. *)
From Coq Require Import List ZArith Bool Arith Lia.
Import ListNotations.
From Verif Require Import Num NumFix Vec Handlers Material Analysis Truss Equil ListFacts SpecMech EquilFacts EvalFacts SpecLocal LocalFacts.

(** The internal force of a node is a function of the bars that end there, of the
    coordinates and displacements of their ends and of their state variables: two
    trusses that agree in these report the same force, whatever else they contain. *)
Theorem C64_force : forall {F} `{NF : Num F} c c' ms ms' V V' V0 V0' w w' an an' bn bn' g g' l,
  truss_ok c ms -> sizes_ok c ms an -> equilibrium c V V0 w an = Ok (bn, g) ->
  truss_ok c' ms' -> sizes_ok c' ms' an' -> equilibrium c' V' V0' w' an' = Ok (bn', g') ->
  In l (c_labels c) -> In l (c_labels c') ->
  Forall2 (same_bar c c' bn bn') (bars_between c an l l ms) (bars_between c' an' l l ms') ->
  row_of (c_labels c) (a_r bn) vzero l = row_of (c_labels c') (a_r bn') vzero l.
Proof.
  intros F NF c c' ms ms' V V' V0 V0' w w' an an' bn bn' g g' l Hok Hsz HE Hok' Hsz' HE' Hl Hl' HB.
  destruct (force_at c ms _ _ _ _ _ _ l Hok Hsz HE Hl) as (qs & Hq & Er & _).
  destruct (force_at c' ms' _ _ _ _ _ _ l Hok' Hsz' HE' Hl') as (qs' & Hq' & Er' & _).
  pose proof (gequilibrium_sizes _ _ _ _ _ _ _ _ Hok Hsz HE) as (L1 & L2 & _).
  pose proof (gequilibrium_sizes _ _ _ _ _ _ _ _ Hok' Hsz' HE') as (L1' & L2' & _). clear HE HE'.
  rewrite Er, Er'. f_equal.
  eapply (same_terms c c' ms ms' bn bn' an an'); try eassumption; [apply vterms_far|apply vterms_label].
Qed.
Print Assumptions C64_force.

(** Stretch, stress and force of a bar are a function of its own data, its own state
    variables and the coordinates and displacements of its two ends. *)
Theorem C64_bar : forall {F} `{NF : Num F} c c' ms ms' V V' V0 V0' w w' an an' bn bn' g g' k k' m m',
  truss_ok c ms -> sizes_ok c ms an -> equilibrium c V V0 w an = Ok (bn, g) ->
  truss_ok c' ms' -> sizes_ok c' ms' an' -> equilibrium c' V' V0' w' an' = Ok (bn', g') ->
  nth_error ms k = Some m -> nth_error ms' k' = Some m' ->
  same_bar c c' bn bn' (m, state_row c an k) (m', state_row c' an' k') ->
  nth_error (a_stretch bn) k = nth_error (a_stretch bn') k' /\
  nth_error (a_stress bn) k = nth_error (a_stress bn') k' /\
  nth_error (a_force bn) k = nth_error (a_force bn') k'.
Proof.
  intros F NF c c' ms ms' V V' V0 V0' w w' an an' bn bn' g g' k k' m m' Hok Hsz HE Hok' Hsz' HE' Hk Hk' HB.
  assert (Hm : In m ms) by (eapply nth_error_In; eassumption).
  assert (Hm' : In m' ms') by (eapply nth_error_In; eassumption).
  pose proof Hok as (_ & _ & _ & _ & HN). pose proof Hok' as (_ & _ & _ & _ & HN').
  destruct (force_at c ms _ _ _ _ _ _ (mb_a m) Hok Hsz HE (proj1 (HN _ Hm))) as (qs & Hq & _ & -> & -> & ->).
  destruct (force_at c' ms' _ _ _ _ _ _ (mb_a m') Hok' Hsz' HE' (proj1 (HN' _ Hm'))) as (qs' & Hq' & _ & -> & -> & ->).
  pose proof (gequilibrium_sizes _ _ _ _ _ _ _ _ Hok Hsz HE) as (L1 & L2 & _).
  pose proof (gequilibrium_sizes _ _ _ _ _ _ _ _ Hok' Hsz' HE') as (L1' & L2' & _). clear HE HE'.
  destruct (quants_nth _ _ _ _ _ _ _ Hq _ _ Hk) as (q & Eq & Mq). destruct (quants_nth _ _ _ _ _ _ _ Hq' _ _ Hk') as (q' & Eq' & Mq').
  assert (q = q').
  { eapply (member_q_same c ms c' ms' bn bn' (m, state_row c an k) (m', state_row c' an' k')); eassumption. }
  subst q'. rewrite !nth_error_map, Eq, Eq'. auto.
Qed.
Print Assumptions C64_bar.

(** The block of the stiffness matrix that couples two nodes is a function of the
    bars between them (for a node with itself: of the bars at it). *)
Theorem C64_stiffness : forall {F} `{NF : Num F} c c' ms ms' u u' an an' bn bn' Kr Kr' l l',
  truss_ok c ms -> sizes_ok c ms an -> stiffness c u an = Ok (bn, Kr) ->
  truss_ok c' ms' -> sizes_ok c' ms' an' -> stiffness c' u' an' = Ok (bn', Kr') ->
  In l (c_labels c) -> In l' (c_labels c) -> In l (c_labels c') -> In l' (c_labels c') ->
  Forall2 (same_bar c c' bn bn') (bars_between c an l l' ms) (bars_between c' an' l l' ms') ->
  block_of c (a_K bn) l l' = block_of c' (a_K bn') l l'.
Proof.
  intros F NF c c' ms ms' u u' an an' bn bn' Kr Kr' l l' Hok Hsz HE Hok' Hsz' HE' Hl1 Hl2 Hl1' Hl2' HB.
  destruct (block_at c ms _ _ _ _ l l' Hok Hsz HE Hl1 Hl2) as (qs & Hq & Er).
  destruct (block_at c' ms' _ _ _ _ l l' Hok' Hsz' HE' Hl1' Hl2') as (qs' & Hq' & Er').
  pose proof (gstiffness_sizes _ _ _ _ _ _ Hok Hsz HE) as (L1 & L2 & _).
  pose proof (gstiffness_sizes _ _ _ _ _ _ Hok' Hsz' HE') as (L1' & L2' & _). clear HE HE'.
  rewrite Er, Er'. f_equal.
  eapply (same_terms c c' ms ms' bn bn' an an'); try eassumption; [apply kterms_far|apply kterms_label].
Qed.
Print Assumptions C64_stiffness.

(** A node without bars gets the force zero, two nodes without a bar between them
    the stiffness zero. *)
Theorem C64_nothing : forall {F} `{NF : Num F} c ms an,
  truss_ok c ms -> sizes_ok c ms an ->
  (forall V V0 w bn g l, equilibrium c V V0 w an = Ok (bn, g) -> In l (c_labels c) ->
     (forall m, In m ms -> l <> mb_a m /\ l <> mb_b m) -> row_of (c_labels c) (a_r bn) vzero l = vzero) /\
  (forall u bn Kr l l', stiffness c u an = Ok (bn, Kr) -> In l (c_labels c) -> In l' (c_labels c) ->
     (forall m, In m ms -> ~ (l = mb_a m \/ l = mb_b m) \/ ~ (l' = mb_a m \/ l' = mb_b m)) ->
     block_of c (a_K bn) l l' = mzero).
Proof.
  intros F NF c ms an Hok Hsz. split.
  - intros V V0 w bn g l HE Hl Hn. destruct (force_at c ms _ _ _ _ _ _ l Hok Hsz HE Hl) as (qs & _ & -> & _). clear HE.
    rewrite (flat_map_nil (vterms l)); [reflexivity|]. intros [m q] Hx. apply in_combine_l in Hx. apply vterms_far.
    apply apart_at, Hn, Hx.
  - intros u bn Kr l l' HE Hl Hl' Hn. destruct (block_at c ms _ _ _ _ l l' Hok Hsz HE Hl Hl') as (qs & _ & ->). clear HE.
    rewrite (flat_map_nil (kterms l l')); [reflexivity|]. intros [m q] Hx. apply in_combine_l in Hx. apply kterms_far.
    now apply apart_between, Hn.
Qed.
Print Assumptions C64_nothing.

(** ** The hypotheses are met: a chain of four nodes, and a truss of six with the
    same bars at node 2, in an arithmetic that rounds *)
Definition xl_ctx1 : ctx fix_ :=
  Ctx [1; 2; 3; 4]%Z [V3 f0 f0 f0; V3 (q 3 1) (q 4 1) f0; V3 (q 6 1) f0 f0; V3 (q 9 1) (q 4 1) f0]
    (ElemH [1; 2; 3]%Z [(1, 2); (2, 3); (3, 4)]%Z [1; 1; 1]%Z [1; 2; 1]%Z
       (Tab false 3 [[q 1 1; f0; f0]; [q 1 1; q 1 10; q 1 50]; [q 2 1; f0; f0]]) (Tab false 1 [[f1]; [f1]; [f1]])) 4 12 2.
Definition xl_ms1 : list (member fix_) :=
  [Mb 1 1 2 UmatEl [q 1 1; f0; f0] [f1]; Mb 2 2 3 UmatPl [q 1 1; q 1 10; q 1 50] [f1]; Mb 3 3 4 UmatEl [q 2 1; f0; f0] [f1]].
Definition xl_an (n e : nat) (dofs : list nat) : analysis fix_ :=
  An 1 (zeros3 n) (zeros3 n) (zeros3 n) (repeat f0 (3 * n)) (zerosK n) (repeat f0 e) (repeat f0 e) (repeat f0 e)
    [] dofs (repeat f0 (length dofs)) (repeat f0 (S (length dofs))) f0 (Some (repeat [q 1 30; q 1 40] e))
    [] 0 [] [] (repeat f0 (length dofs)) (repeat [f0; f0; f0] n) (repeat [f0; f0; f0] n).
Definition xl_ctx2 : ctx fix_ :=
  Ctx [7; 3; 2; 9; 1; 4]%Z
    [V3 f1 f1 f1; V3 (q 6 1) f0 f0; V3 (q 3 1) (q 4 1) f0; V3 f0 f0 (q 5 1); V3 f0 f0 f0; V3 (q 7 1) (q 7 1) f0]
    (ElemH [5; 8; 6]%Z [(9, 3); (1, 2); (2, 3)]%Z [1; 1; 1]%Z [1; 1; 2]%Z
       (Tab false 3 [[q 5 1; f0; f0]; [q 1 1; f0; f0]; [q 1 1; q 1 10; q 1 50]]) (Tab false 1 [[q 3 1]; [f1]; [f1]])) 6 18 2.
Definition xl_ms2 : list (member fix_) :=
  [Mb 5 9 3 UmatEl [q 5 1; f0; f0] [q 3 1]; Mb 8 1 2 UmatEl [q 1 1; f0; f0] [f1]; Mb 6 2 3 UmatPl [q 1 1; q 1 10; q 1 50] [f1]].

Lemma xl_truss1 : truss_ok xl_ctx1 xl_ms1.
Proof.
  repeat split; try reflexivity;
    try (repeat constructor; cbn; intros H; repeat destruct H as [H|H]; try discriminate; auto; fail);
    destruct H as [<-|[<-|[<-|[]]]]; cbn; auto; discriminate.
Qed.
Lemma xl_truss2 : truss_ok xl_ctx2 xl_ms2.
Proof.
  repeat split; try reflexivity;
    try (repeat constructor; cbn; intros H; repeat destruct H as [H|H]; try discriminate; auto; fail);
    destruct H as [<-|[<-|[<-|[]]]]; cbn; tauto || discriminate.
Qed.
Lemma seq_ok n : NoDup (seq 0 n) /\ forall k, In k (seq 0 n) -> k < n.
Proof. split; [apply seq_NoDup|]. intros k H. apply in_seq in H. lia. Qed.
Lemma xl_sizes1 : sizes_ok xl_ctx1 xl_ms1 (xl_an 4 3 (seq 0 12)).
Proof.
  unfold sizes_ok. do 4 (split; [reflexivity|]).
  split. { intros row H. repeat (destruct H as [<-|H]; [reflexivity|]). destruct H. }
  do 3 (split; [reflexivity|]). split; [apply (seq_ok 12)|]. split; [apply (seq_ok 12)|]. split; [reflexivity|].
  intros _. eexists. split; reflexivity.
Qed.
Lemma xl_sizes2 : sizes_ok xl_ctx2 xl_ms2 (xl_an 6 3 (seq 0 18)).
Proof.
  unfold sizes_ok. do 4 (split; [reflexivity|]).
  split. { intros row H. repeat (destruct H as [<-|H]; [reflexivity|]). destruct H. }
  do 3 (split; [reflexivity|]). split; [apply (seq_ok 18)|]. split; [apply (seq_ok 18)|]. split; [reflexivity|].
  intros _. eexists. split; reflexivity.
Qed.

(** Nodes 1, 2 and 3 move in the same way, nodes 4, 7 and 9 do not. *)
Definition xl_V1 : list fix_ :=
  [q 1 9; f0; f0;  q 1 7; q (-1) 3; f0;  f0; q 1 5; q 1 11;  f1; f1; f1;  f0].
Definition xl_V2 : list fix_ :=
  [f1; f1; f1;  f0; q 1 5; q 1 11;  q 1 7; q (-1) 3; f0;  f1; f0; f1;  q 1 9; f0; f0;  f0; f0; f0;  f1].

Example C64_meets : exists bn bn' g g',
  equilibrium xl_ctx1 xl_V1 xl_V1 true (xl_an 4 3 (seq 0 12)) = Ok (bn, g) /\
  equilibrium xl_ctx2 xl_V2 xl_V2 true (xl_an 6 3 (seq 0 18)) = Ok (bn', g') /\
  Forall2 (same_bar xl_ctx1 xl_ctx2 bn bn') (bars_between xl_ctx1 (xl_an 4 3 (seq 0 12)) 2 2 xl_ms1)
    (bars_between xl_ctx2 (xl_an 6 3 (seq 0 18)) 2 2 xl_ms2) /\
  length (bars_between xl_ctx1 (xl_an 4 3 (seq 0 12)) 2 2 xl_ms1) = 2 /\
  row_of (c_labels xl_ctx1) (a_r bn) vzero 2%Z <> vzero /\
  row_of (c_labels xl_ctx1) (a_r bn) vzero 3%Z <> row_of (c_labels xl_ctx2) (a_r bn') vzero 3%Z.
Proof.
  do 4 eexists. split; [vm_compute; reflexivity|]. split; [vm_compute; reflexivity|]. split.
  - vm_compute. repeat constructor.
  - split; [reflexivity|]. split; vm_compute; discriminate.
Qed.

Example C64_stiffness_meets : exists bn bn' K K',
  stiffness xl_ctx1 (firstn 12 xl_V1) (xl_an 4 3 (seq 0 12)) = Ok (bn, K) /\
  stiffness xl_ctx2 (firstn 18 xl_V2) (xl_an 6 3 (seq 0 18)) = Ok (bn', K') /\
  Forall2 (same_bar xl_ctx1 xl_ctx2 bn bn') (bars_between xl_ctx1 (xl_an 4 3 (seq 0 12)) 3 2 xl_ms1)
    (bars_between xl_ctx2 (xl_an 6 3 (seq 0 18)) 3 2 xl_ms2) /\
  length (bars_between xl_ctx1 (xl_an 4 3 (seq 0 12)) 3 2 xl_ms1) = 1 /\
  block_of xl_ctx1 (a_K bn) 3 2 <> mzero /\
  block_of xl_ctx1 (a_K bn) 3 3 <> block_of xl_ctx2 (a_K bn') 3 3.
Proof.
  do 4 eexists. split; [vm_compute; reflexivity|]. split; [vm_compute; reflexivity|]. split.
  - vm_compute. repeat constructor.
  - split; [reflexivity|]. split; vm_compute; discriminate.
Qed.
