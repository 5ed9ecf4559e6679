(** * Properties of the assembled truss (C15 - C20, C23), exact arithmetic *)
From Coq Require Import List ZArith Bool Arith Lia Reals Lra Permutation.
From Coquelicot Require Import Coquelicot.
Import ListNotations.
From Verif Require Import Num NumR Vec Handlers Material Analysis Truss Equil Solver SpecMaterial SpecMech SpecMechR.
From Verif Require Import ListFacts EquilFacts MechFacts StiffFacts MaterialFacts TangentFacts OrderFacts ExTruss.
Local Open Scope R_scope.

(** ** C15 *)

(** Evaluations of a well-formed truss do not raise. *)
Lemma quants_props c ms U U0 an : props_ok c ms an -> forall k ms1 ms2, ms = ms1 ++ ms2 -> k = length ms1 ->
  exists qs, quants c U U0 (state_row c an) k ms2 qs.
Proof.
  intros H k ms1 ms2. revert k ms1. induction ms2 as [|m ms2 IH]; intros k ms1 -> ->; [exists []; constructor|].
  destruct (IH (S (length ms1)) (ms1 ++ [m])) as [qs Hq]; [rewrite <- app_assoc; reflexivity|rewrite app_length; cbn; lia|].
  destruct (H (length ms1) m) as [Hg Hl]; [rewrite nth_error_app2, Nat.sub_diag by lia; reflexivity|].
  assert (Hm : exists q, member_q c U U0 (state_row c an (length ms1)) m = Ok q).
  { unfold member_q, truss_quantities. cbn zeta.
    match goal with |- exists q, bind (umat ?u ?e ?de ?mp ?st) _ = _ => assert (Hu : exists x, umat u e de mp st = Ok x) end.
    { destruct (mb_law m).
      - destruct (mb_mat m) as [|E rest]; [congruence|]. eexists. reflexivity.
      - destruct Hl as (Hl & y & p & r & Er). rewrite Er.
        destruct (mb_mat m) as [|E [|K [|Sy rest]]]; try (cbn in Hl; lia).
        cbn [umat]. rewrite umat_pl_pad.
        match goal with |- context [umat_elplast_iso ?e ?de [E; K; Sy] (Some [y; p])] =>
          destruct (umat_pl_total E K Sy e de y p) as (s & t & y' & p' & ->) end. eexists. reflexivity. }
    destruct Hu as [[[s t] st] ->]. cbn [bind]. destruct (mb_geo m) as [|A g]; [congruence|]. cbn. eexists. reflexivity. }
  destruct Hm as [q Hm]. exists (q :: qs). constructor; auto.
Qed.

Lemma evaluations_total c ms an :
  truss_ok c ms -> sizes_ok c ms an -> loads_ok c an -> props_ok c ms an ->
  (forall V V0 w, length V = S (c_ndof1 c) -> length V0 = S (c_ndof1 c) ->
     exists an' g, equilibrium c V V0 w an = Ok (an', g)) /\
  (forall u, length u = c_ndof1 c -> exists an' K, stiffness c u an = Ok (an', K)).
Proof.
  intros H1 H2 H3 H4. destruct (quants_props c ms [] [] an H4 0%nat [] ms eq_refl eq_refl) as [qs Hq]. split.
  - intros. eapply equilibrium_total; eauto.
  - intros. eapply stiffness_total; eauto.
Qed.

Theorem C15_evaluations_succeed : forall c ms an,
  truss_ok c ms -> sizes_ok c ms an -> loads_ok c an -> props_ok c ms an ->
  (forall V V0 w, length V = S (c_ndof1 c) -> length V0 = S (c_ndof1 c) ->
     exists an' g, equilibrium c V V0 w an = Ok (an', g)) /\
  (forall u, length u = c_ndof1 c -> exists an' K, stiffness c u an = Ok (an', K)).
Proof. exact evaluations_total. Qed.
Print Assumptions C15_evaluations_succeed.

Lemma internal_forces_any c ms V V0 w an an' g :
  truss_ok c ms -> sizes_ok c ms an -> equilibrium c V V0 w an = Ok (an', g) ->
  (forall k m, nth_error ms k = Some m ->
     exists s t st A,
       (forall de, umat (mb_law m) (stretch_of c (a_U an') m - 1) de (mb_mat m) (state_row c an k) = Ok (s, t, st)) /\
       nth_error (mb_geo m) 0 = Some A /\
       nth_error (a_stretch an') k = Some (stretch_of c (a_U an') m) /\
       nth_error (a_stress an') k = Some s /\
       nth_error (a_force an') k = Some (A * s)) /\
  (forall l, In l (c_labels c) ->
     row_of (c_labels c) (a_r an') vzero l = vsum (map (pull c (a_U an') l) (combine ms (a_force an')))).
Proof.
  intros H1 H2 H3. destruct (internal_forces _ _ _ _ _ _ _ _ H1 H2 H3) as [A B]. split; [|exact B].
  intros k m Hk. destruct (A k m Hk) as (s & t & st & de & a & Hu & ?). exists s, t, st, a. split; [|tauto].
  intros de'. rewrite (umat_de _ _ de' de). exact Hu.
Qed.

(** C15: nodal internal forces are the sum of the pulls of the members, and
    stretch, stress and force of each member are l/L, the material stress at
    l/L - 1 and A times stress; whatever [an] held before. *)
Theorem C15_internal_forces : forall c ms V V0 w an an' g,
  truss_ok c ms -> sizes_ok c ms an -> equilibrium c V V0 w an = Ok (an', g) ->
  (forall k m, nth_error ms k = Some m ->
     exists s t st A,
       (forall de, umat (mb_law m) (stretch_of c (a_U an') m - 1) de (mb_mat m) (state_row c an k) = Ok (s, t, st)) /\
       nth_error (mb_geo m) 0 = Some A /\
       nth_error (a_stretch an') k = Some (stretch_of c (a_U an') m) /\
       nth_error (a_stress an') k = Some s /\
       nth_error (a_force an') k = Some (A * s)) /\
  (forall l, In l (c_labels c) ->
     row_of (c_labels c) (a_r an') vzero l = vsum (map (pull c (a_U an') l) (combine ms (a_force an')))).
Proof. exact internal_forces_any. Qed.
Print Assumptions C15_internal_forces.

(** C15, C26: the displacements are the given ones at the active DOFs (and
    unchanged at the others), and the returned residual is minus the internal
    force plus the constant load plus the load factor times the reference load. *)
Theorem C15_residual : forall c ms V V0 w an an' gr,
  truss_ok c ms -> sizes_ok c ms an -> loads_ok c an -> length V = S (c_ndof1 c) ->
  equilibrium c V V0 w an = Ok (an', gr) ->
  scatter (a_U an) (a_DOF1 an) (firstn (c_ndof1 c) V) = Ok (a_U an') /\
  length gr = length (a_DOF1 an) /\
  (forall i p l, nth_error (a_DOF1 an) i = Some p -> nth_error (c_labels c) (p / 3) = Some l ->
    nth i gr 0 = - vget (row_of (c_labels c) (a_r an') vzero l) (p mod 3)
                 + nth p (concat (a_fconst an)) 0
                 + last V 0 * nth p (concat (a_forces an)) 0).
Proof. exact residual_formula. Qed.
Print Assumptions C15_residual.

(** The example truss meets the hypotheses. *)
Lemma ex_props : props_ok ex_ctx ex_ms ex_an.
Proof.
  intros [|[|k]] m Hm; cbn in Hm; [| |destruct k; discriminate]; injection Hm as <-.
  - cbn. split; discriminate.
  - split; [discriminate|]. cbn. split; [lia|]. repeat eexists.
Qed.

Example C15_meets : truss_ok ex_ctx ex_ms /\ sizes_ok ex_ctx ex_ms ex_an /\ loads_ok ex_ctx ex_an /\
  props_ok ex_ctx ex_ms ex_an /\
  exists an' g, equilibrium ex_ctx [1/10; -1/7; 2] [0; 0; 0] true ex_an = Ok (an', g).
Proof.
  split; [apply ex_truss|]. split; [apply ex_sizes|]. split; [apply ex_loads|]. split; [apply ex_props|].
  apply ex_equilibrium; reflexivity.
Qed.

(** ** C16: internal forces sum to zero and so do their moments about any point
    [p], taken in the deformed configuration (coordinates + displacements). *)
Theorem C16_self_equilibrium : forall c ms V V0 w an an' g,
  truss_ok c ms -> sizes_ok c ms an -> equilibrium c V V0 w an = Ok (an', g) ->
  vsum (a_r an') = vzero /\
  forall p, vsum (map2 (fun x r => cross (vsub x p) r) (map2 vadd (c_coords c) (a_U an')) (a_r an')) = vzero.
Proof. exact self_equilibrium. Qed.
Print Assumptions C16_self_equilibrium.

(** ** C17: two evaluations whose deformed positions differ by x' = Q x + t with
    orthogonal Q (the identity for translations) give the same member data, and
    nodal forces rotated by Q. *)
Theorem C17_objectivity : forall c ms V V0 w an an1 g W W0 w2 an0 an2 g2 Q t,
  truss_ok c ms -> sizes_ok c ms an -> sizes_ok c ms an0 ->
  a_state an0 = a_state an ->
  equilibrium c V V0 w an = Ok (an1, g) -> equilibrium c W W0 w2 an0 = Ok (an2, g2) ->
  orthogonal Q ->
  (forall l, In l (c_labels c) -> place c (a_U an2) l = vadd (mvec Q (place c (a_U an1) l)) t) ->
  a_stretch an2 = a_stretch an1 /\ a_stress an2 = a_stress an1 /\ a_force an2 = a_force an1 /\
  forall l, In l (c_labels c) ->
    row_of (c_labels c) (a_r an2) vzero l = mvec Q (row_of (c_labels c) (a_r an1) vzero l).
Proof. exact objectivity. Qed.
Print Assumptions C17_objectivity.

Lemma translation_facts c ms V V0 w an an1 g W W0 w2 an0 an2 g2 t :
  truss_ok c ms -> sizes_ok c ms an -> sizes_ok c ms an0 ->
  a_state an0 = a_state an ->
  equilibrium c V V0 w an = Ok (an1, g) -> equilibrium c W W0 w2 an0 = Ok (an2, g2) ->
  (forall l, In l (c_labels c) -> place c (a_U an2) l = vadd (place c (a_U an1) l) t) ->
  a_stretch an2 = a_stretch an1 /\ a_stress an2 = a_stress an1 /\ a_force an2 = a_force an1 /\
  a_r an2 = a_r an1.
Proof.
  intros H1 H2 H3 H4 H5 H6 H7.
  assert (HI : forall v : v3 R, mvec meye v = v) by veq.
  assert (HQ : orthogonal meye) by (intros v v'; rewrite !HI; reflexivity).
  destruct (objectivity c ms V V0 w an an1 g W W0 w2 an0 an2 g2 meye t H1 H2 H3 H4 H5 H6 HQ) as (A & B & C & D).
  { intros l Hl. rewrite HI. apply H7, Hl. }
  split; [exact A|]. split; [exact B|]. split; [exact C|].
  pose proof (equilibrium_lengths _ _ _ _ _ _ _ _ H1 H2 H5) as (_ & _ & L1 & _).
  pose proof (equilibrium_lengths _ _ _ _ _ _ _ _ H1 H3 H6) as (_ & _ & L2 & _).
  destruct H1 as (Hn & _).
  rewrite <- (map_row_of (c_labels c) (a_r an2) vzero Hn L2), <- (map_row_of (c_labels c) (a_r an1) vzero Hn L1).
  apply map_ext_in. intros l Hl. rewrite D, HI by exact Hl. reflexivity.
Qed.

(** Translations: nodal forces do not change at all. *)
Theorem C17_translation : forall c ms V V0 w an an1 g W W0 w2 an0 an2 g2 t,
  truss_ok c ms -> sizes_ok c ms an -> sizes_ok c ms an0 ->
  a_state an0 = a_state an ->
  equilibrium c V V0 w an = Ok (an1, g) -> equilibrium c W W0 w2 an0 = Ok (an2, g2) ->
  (forall l, In l (c_labels c) -> place c (a_U an2) l = vadd (place c (a_U an1) l) t) ->
  a_stretch an2 = a_stretch an1 /\ a_stress an2 = a_stress an1 /\ a_force an2 = a_force an1 /\
  a_r an2 = a_r an1.
Proof. exact translation_facts. Qed.
Print Assumptions C17_translation.

(** The free-floating example (all nine DOFs active), rotated by 90 degrees
    about z and shifted by (1,2,3), meets the hypotheses. *)
Definition ex_free : ctx R := Ctx (c_labels ex_ctx) (c_coords ex_ctx) (c_elems ex_ctx) 3 9 2.
Definition ex_free_an : analysis R :=
  An 1 (zeros3 3) (zeros3 3) (zeros3 3) (repeat 0 9) (zerosK 3) [0; 0] [0; 0] [0; 0]
     [] (seq 0 9) (repeat 0 9) [] 0 (Some [[0; 0]; [0; 0]])
     [] 0 [] [] (repeat 0 9) [[0; 0; 0]; [0; 0; 0]; [0; 0; 0]] [[0; 0; 0]; [0; 0; 0]; [0; 0; 0]].
Definition ex_rot : m3 R := V3 (V3 0 (-1) 0) (V3 1 0 0) (V3 0 0 1).

Lemma ex_free_truss : truss_ok ex_free ex_ms.
Proof. exact ex_truss. Qed.
Lemma ex_free_sizes : sizes_ok ex_free ex_ms ex_free_an.
Proof.
  unfold sizes_ok. do 4 (split; [reflexivity|]).
  split. { intros row [<-|[<-|[<-|[]]]]; reflexivity. }
  do 3 (split; [reflexivity|]).
  split. { apply seq_NoDup. }
  split. { intros k Hk. apply in_seq in Hk. cbn in *. lia. }
  split; [reflexivity|]. intros _. eexists. split; reflexivity.
Qed.

Example C17_meets : exists an1 g an2 g2,
  equilibrium ex_free [0;0;0; 1;0;0; 0;1;0; 0] (repeat 0 10) false ex_free_an = Ok (an1, g) /\
  equilibrium ex_free [1;2;3; -2;6;3; -7;1;3; 0] (repeat 0 10) false ex_free_an = Ok (an2, g2) /\
  orthogonal ex_rot /\
  (forall l, In l (c_labels ex_free) ->
     place ex_free (a_U an2) l = vadd (mvec ex_rot (place ex_free (a_U an1) l)) (V3 1 2 3)).
Proof.
  assert (HP : props_ok ex_free ex_ms ex_free_an) by exact ex_props.
  destruct (evaluations_total ex_free ex_ms ex_free_an ex_free_truss ex_free_sizes (conj eq_refl eq_refl) HP) as [T _].
  destruct (T [0;0;0; 1;0;0; 0;1;0; 0] (repeat 0 10) false eq_refl eq_refl) as (an1 & g & E1).
  destruct (T [1;2;3; -2;6;3; -7;1;3; 0] (repeat 0 10) false eq_refl eq_refl) as (an2 & g2 & E2).
  exists an1, g, an2, g2. split; [exact E1|]. split; [exact E2|]. split.
  { intros [a b d] [a' b' d']. unfold ex_rot, mvec, vdot, vmap. cbn. ring. }
  destruct (fun L => residual_formula _ _ _ _ _ _ _ _ ex_free_truss ex_free_sizes (conj eq_refl eq_refl) L E1) as (U1 & _); [reflexivity|].
  destruct (fun L => residual_formula _ _ _ _ _ _ _ _ ex_free_truss ex_free_sizes (conj eq_refl eq_refl) L E2) as (U2 & _); [reflexivity|].
  cbn in U1, U2. injection U1 as U1. injection U2 as U2. rewrite <- U1, <- U2.
  intros l [<-|[<-|[<-|[]]]]; unfold place, mvec, ex_rot, vadd, vdot, vmap, vmap2; cbn; f_equal; ring.
Qed.

(** ** C18 *)
Theorem C18_stiffness_symmetric : forall c ms u an an' Kred,
  truss_ok c ms -> sizes_ok c ms an -> stiffness c u an = Ok (an', Kred) ->
  (forall l l', In l (c_labels c) -> In l' (c_labels c) ->
     K_block c (a_K an') l l' = mtr (K_block c (a_K an') l' l)) /\
  (forall i j, (i < length (a_DOF1 an))%nat -> (j < length (a_DOF1 an))%nat ->
     nth j (nth i Kred []) 0 = nth i (nth j Kred []) 0) /\
  (forall l t, In l (c_labels c) ->
     vsum (map (fun l' => mvec (K_block c (a_K an') l l') t) (c_labels c)) = vzero).
Proof. exact stiffness_symmetric. Qed.
Print Assumptions C18_stiffness_symmetric.

Example C18_meets : exists an' K, stiffness ex_ctx [1/10; -1/7] ex_an = Ok (an', K).
Proof. apply ex_stiffness. reflexivity. Qed.

(** ** C19 *)
Lemma residual_tangent_R c ms u lam V0 w an an2 K :
  truss_ok c ms -> sizes_ok c ms an -> loads_ok c an ->
  length u = c_ndof1 c -> length V0 = S (c_ndof1 c) ->
  stiffness c u an = Ok (an2, K) -> regular c ms an (a_U an2) ->
  (forall v, length v = S (c_ndof1 c) -> exists an' g, equilibrium c v V0 w an = Ok (an', g)) /\
  (forall i j, (i < c_ndof1 c)%nat -> (j < c_ndof1 c)%nat ->
     derivable_pt_lim
       (fun t => - nth i (value (equilibrium c (set_nth j t u ++ [lam]) V0 w an)) 0)
       (nth j u 0) (nth j (nth i K []) 0)).
Proof.
  intros H1 H2 H3 H4 H5 H6 H7.
  destruct (residual_tangent c ms u lam V0 w an an2 K H1 H2 H3 H4 H5 H6 H7) as [A B].
  split; [exact A|]. intros i j Hi Hj. specialize (B i j Hi Hj). apply is_derive_Reals in B.
  apply derivable_pt_lim_opp in B. rewrite Ropp_involutive in B. exact B.
Qed.

(** C19: entry (i,j) of the returned matrix is the derivative of minus the i-th
    residual with respect to the j-th active displacement; the residual exists
    for all displacements. *)
Theorem C19_stiffness_is_tangent : forall c ms u lam V0 w an an2 K,
  truss_ok c ms -> sizes_ok c ms an -> loads_ok c an ->
  length u = c_ndof1 c -> length V0 = S (c_ndof1 c) ->
  stiffness c u an = Ok (an2, K) -> regular c ms an (a_U an2) ->
  (forall v, length v = S (c_ndof1 c) -> exists an' g, equilibrium c v V0 w an = Ok (an', g)) /\
  (forall i j, (i < c_ndof1 c)%nat -> (j < c_ndof1 c)%nat ->
     derivable_pt_lim
       (fun t => - nth i (value (equilibrium c (set_nth j t u ++ [lam]) V0 w an)) 0)
       (nth j u 0) (nth j (nth i K []) 0)).
Proof. exact residual_tangent_R. Qed.
Print Assumptions C19_stiffness_is_tangent.

Example C19_meets : exists an2 K, stiffness ex_ctx [0; 0] ex_an = Ok (an2, K) /\
  regular ex_ctx ex_ms ex_an (a_U an2).
Proof.
  destruct (ex_stiffness [0; 0] eq_refl) as (an2 & K & E). exists an2, K. split; [exact E|].
  rewrite (ex_stiffness_U _ _ E). exact ex_regular.
Qed.

(** ** C20 *)
Lemma extended_tangent_R c ms V V0 w an j Vmax an2 Km :
  truss_ok c ms -> sizes_ok c ms an -> loads_ok c an ->
  length V = S (c_ndof1 c) -> length V0 = S (c_ndof1 c) ->
  gather (concat (a_forces an)) (a_DOF1 an) = Ok (a_f0red an) ->
  dfdx (stiffness c) j V an = Ok (an2, Km) -> regular c ms an (a_U an2) ->
  (forall v, length v = S (c_ndof1 c) -> exists an' f, f_ext (equilibrium c) V0 j Vmax w v an = Ok (an', f)) /\
  (forall i k, (i < S (c_ndof1 c))%nat -> (k < S (c_ndof1 c))%nat ->
     derivable_pt_lim
       (fun t => nth i (value (f_ext (equilibrium c) V0 j Vmax w (set_nth k t V) an)) 0)
       (nth k V 0) (nth k (nth i Km []) 0)).
Proof.
  intros H1 H2 H3 H4 H5 H6 H7 H8.
  destruct (extended_tangent c ms V V0 w an j Vmax an2 Km H1 H2 H3 H4 H5 H6 H7 H8) as [A B].
  split; [exact A|]. intros i k Hi Hk. apply is_derive_Reals. exact (B i k Hi Hk).
Qed.

(** C20: the matrix handed to the linear solver is the Jacobian of the function
    being solved, with respect to all displacements and the load factor. *)
Theorem C20_extended_jacobian : forall c ms V V0 w an j Vmax an2 Km,
  truss_ok c ms -> sizes_ok c ms an -> loads_ok c an ->
  length V = S (c_ndof1 c) -> length V0 = S (c_ndof1 c) ->
  gather (concat (a_forces an)) (a_DOF1 an) = Ok (a_f0red an) ->
  dfdx (stiffness c) j V an = Ok (an2, Km) -> regular c ms an (a_U an2) ->
  (forall v, length v = S (c_ndof1 c) -> exists an' f, f_ext (equilibrium c) V0 j Vmax w v an = Ok (an', f)) /\
  (forall i k, (i < S (c_ndof1 c))%nat -> (k < S (c_ndof1 c))%nat ->
     derivable_pt_lim
       (fun t => nth i (value (f_ext (equilibrium c) V0 j Vmax w (set_nth k t V) an)) 0)
       (nth k V 0) (nth k (nth i Km []) 0)).
Proof. exact extended_tangent_R. Qed.
Print Assumptions C20_extended_jacobian.

(** C20: the function being solved is the negative residual with the control
    equation V_|j| - Vmax appended. *)
Theorem C20_extended_residual : forall (g : gfun R) V0 (j : Z) Vmax w V an an' f,
  (1 <= Z.abs j <= Z.of_nat (length V))%Z ->
  f_ext g V0 j Vmax w V an = Ok (an', f) ->
  exists gr, g V V0 w (set_j j an) = Ok (an', gr) /\
    f = map Ropp gr ++ [nth (Z.to_nat (Z.abs j) - 1) V 0 - Vmax].
Proof.
  intros g V0 j Vmax w V an an' f Hj H. unfold f_ext in H.
  destruct (g V V0 w (set_j j an)) as [[an1 gr]| |] eqn:E; try discriminate. cbn [bind] in H.
  unfold py_get, py_pos in H.
  destruct (Z.abs j - 1 <? 0)%Z eqn:E1; [apply Z.ltb_lt in E1; lia|].
  destruct ((0 <=? Z.abs j - 1)%Z && (Z.abs j - 1 <? Z.of_nat (length V))%Z)%bool eqn:E2;
    [|apply andb_false_iff in E2; destruct E2 as [E2|E2]; [apply Z.leb_gt in E2|apply Z.ltb_ge in E2]; lia].
  cbn [bind] in H. replace (Z.to_nat (Z.abs j - 1)) with (Z.to_nat (Z.abs j) - 1)%nat in H by lia.
  destruct (nth_error V (Z.to_nat (Z.abs j) - 1)) as [vj|] eqn:En; cbn [bind] in H; [|discriminate].
  injection H as <- <-. exists gr. split; [reflexivity|]. rewrite (nth_error_nth _ _ 0 En). reflexivity.
Qed.
Print Assumptions C20_extended_residual.

(** The Jacobian of a well-formed truss exists for every valid component. *)
Lemma dfdx_total c ms V an j :
  truss_ok c ms -> sizes_ok c ms an -> loads_ok c an -> props_ok c ms an ->
  length V = S (c_ndof1 c) -> length (a_f0red an) = c_ndof1 c ->
  (1 <= Z.abs j <= Z.of_nat (length V))%Z ->
  exists an2 Km, dfdx (stiffness c) j V an = Ok (an2, Km) /\
    scatter (a_U an) (a_DOF1 an) (removelast V) = Ok (a_U an2).
Proof.
  intros Hok Hsz Hld Hpr HV Hf Hj.
  destruct (snoc_split V _ HV) as [_ HuL].
  destruct (evaluations_total c ms (set_j j an) Hok Hsz Hld Hpr) as [_ T].
  destruct (T (removelast V) HuL) as (an1 & K & E).
  pose proof (stiffness_f0red _ _ _ _ _ E ms Hok Hsz) as Hf0. cbn [a_f0red set_j] in Hf0.
  destruct (stiffness_inv _ _ _ _ _ _ Hok (Hsz : sizes_ok c ms (set_j j an)) E) as (an0 & u & lam & qs & Hp & _ & Ea & Hsel & _).
  destruct (select2_ent _ _ _ Hsel) as (HlK & _ & HrK). cbn [a_DOF1 set_j] in HlK, HrK.
  pose proof Hsz as (_ & _ & _ & _ & _ & _ & _ & _ & _ & _ & Hn & _).
  exists (set_Kmod (map2 (fun row x => row ++ [x]) K (map fopp (a_f0red an1)) ++
                    [set_nth (Z.to_nat (Z.abs j - 1)) 1 (repeat 0 (length V))]) an1).
  eexists. split.
  - unfold dfdx, ctrl_row, py_pos.
    destruct (Z.ltb_spec (Z.abs j - 1) 0); [lia|].
    destruct (Z.leb_spec 0 (Z.abs j - 1)); [|lia]. destruct (Z.ltb_spec (Z.abs j - 1) (Z.of_nat (length V))); [|lia].
    cbn [andb bind]. rewrite E. cbn [bind]. unfold hstack_col. rewrite map_length, Hf0, Hf, HlK, <- Hn, Nat.eqb_refl.
    cbn [bind]. match goal with |- context [forallb ?p ?l] => assert (Hall : forallb p l = true) end.
    { apply forallb_forall. intros row Hin. rewrite set_nth_length, repeat_length. apply Nat.eqb_eq.
      clear -Hin HrK Hn HV. revert Hin HrK. generalize (map fopp (a_f0red an)). induction K as [|r K IH]; intros [|f fs] Hin HrK;
        cbn [map2 In] in Hin; try contradiction.
      destruct Hin as [<-|Hin]; [rewrite app_length, (HrK r) by (left; auto); cbn; lia|].
      eapply IH; [exact Hin|]. intros; apply HrK; right; auto. }
    rewrite Hall. reflexivity.
  - cbn [a_U set_Kmod]. subst an1. cbn [a_U set_Kred].
    pose proof (loop_frame StK c u lam false (zipk 0 ms qs) an0) as Hfr. cbn zeta in Hfr. destruct Hfr as (-> & _).
    destruct (prepare_U _ _ _ _ _ _ _ _ _ Hp eq_refl) as [_ H2]. destruct (H2 HuL) as [H3 _]. exact H3.
Qed.

Example C20_meets : exists an2 Km, dfdx (stiffness ex_ctx) (-2) [0; 0; 1/3] ex_an = Ok (an2, Km) /\
  regular ex_ctx ex_ms ex_an (a_U an2) /\
  gather (concat (a_forces ex_an)) (a_DOF1 ex_an) = Ok (a_f0red ex_an).
Proof.
  destruct (dfdx_total ex_ctx ex_ms [0; 0; 1/3] ex_an (-2) ex_truss ex_sizes ex_loads ex_props eq_refl eq_refl)
    as (an2 & Km & E & EU); [cbn; lia|].
  exists an2, Km. split; [exact E|]. split; [|reflexivity].
  cbn in EU. injection EU as <-. exact ex_regular.
Qed.

(** ** C23 *)

(** Permuting the members, with their data and state rows, changes neither the
    residual nor the nodal internal forces; member data moves with its member. *)
Theorem C23_element_order_forces : forall c c' ms ms' V V0 w an an' an1 g1,
  truss_ok c ms -> truss_ok c' ms' -> sizes_ok c ms an -> sizes_ok c' ms' an' ->
  same_nodes c c' -> Permutation ms ms' -> same_state an an' -> loads_ok c an ->
  (forall k k' m, nth_error ms k = Some m -> nth_error ms' k' = Some m ->
     state_row c' an' k' = state_row c an k) ->
  length V = S (c_ndof1 c) -> length V0 = S (c_ndof1 c) ->
  equilibrium c V V0 w an = Ok (an1, g1) ->
  exists an2, equilibrium c' V V0 w an' = Ok (an2, g1) /\
    (forall l, In l (c_labels c) ->
       row_of (c_labels c) (a_r an2) vzero l = row_of (c_labels c) (a_r an1) vzero l) /\
    (forall k k' m, nth_error ms k = Some m -> nth_error ms' k' = Some m ->
       nth_error (a_stretch an2) k' = nth_error (a_stretch an1) k /\
       nth_error (a_stress an2) k' = nth_error (a_stress an1) k /\
       nth_error (a_force an2) k' = nth_error (a_force an1) k).
Proof. exact element_order. Qed.
Print Assumptions C23_element_order_forces.

Theorem C23_element_order_stiffness : forall c c' ms ms' u an an' an1 K1,
  truss_ok c ms -> truss_ok c' ms' -> sizes_ok c ms an -> sizes_ok c' ms' an' ->
  same_nodes c c' -> Permutation ms ms' -> same_state an an' ->
  (forall k k' m, nth_error ms k = Some m -> nth_error ms' k' = Some m ->
     state_row c' an' k' = state_row c an k) ->
  length u = c_ndof1 c ->
  stiffness c u an = Ok (an1, K1) ->
  exists an2, stiffness c' u an' = Ok (an2, K1) /\
    (forall l l', In l (c_labels c) -> In l' (c_labels c) ->
       K_block c (a_K an2) l l' = K_block c (a_K an1) l l').
Proof. exact stiffness_order. Qed.
Print Assumptions C23_element_order_stiffness.

(** The example with its two members swapped, in a state where the plastic
    member has yielded. *)
Definition ex_swap : ctx R :=
  Ctx [1; 2; 5]%Z [V3 0 0 0; V3 3 0 0; V3 3 4 0]
      (ElemH [9; 7]%Z [(2, 5); (1, 2)]%Z [1; 1]%Z [2; 1]%Z
             (Tab false 3 [[100; 10; 1]; [210; 0; 0]]) (Tab false 1 [[2]; [1]]))
      3 2 2.
Definition ex_an1 : analysis R := set_state (Some [[0; 0]; [3; 1/5]]) ex_an.
Definition ex_an2 : analysis R := set_state (Some [[3; 1/5]; [0; 0]]) ex_an.

Example C23_meets :
  truss_ok ex_ctx ex_ms /\ truss_ok ex_swap (rev ex_ms) /\
  sizes_ok ex_ctx ex_ms ex_an1 /\ sizes_ok ex_swap (rev ex_ms) ex_an2 /\
  same_nodes ex_ctx ex_swap /\ Permutation ex_ms (rev ex_ms) /\ same_state ex_an1 ex_an2 /\
  (forall k k' m, nth_error ex_ms k = Some m -> nth_error (rev ex_ms) k' = Some m ->
     state_row ex_swap ex_an2 k' = state_row ex_ctx ex_an1 k).
Proof.
  split; [apply ex_truss|]. split.
  { repeat split; try reflexivity.
    - repeat constructor; cbn; intros H; repeat destruct H as [H|H]; try discriminate; auto.
    - repeat constructor; cbn; intros H; repeat destruct H as [H|H]; try discriminate; auto.
    - destruct H as [<-|[<-|[]]]; cbn; auto.
    - destruct H as [<-|[<-|[]]]; cbn; auto.
    - destruct H as [<-|[<-|[]]]; cbn; discriminate. }
  assert (Hs : forall c' ms' st, length ms' = 2%nat -> c_labels c' = [1; 2; 5]%Z -> c_ndof1 c' = 2%nat ->
    length st = 2%nat -> sizes_ok c' ms' (set_state (Some st) ex_an)).
  { intros c' ms' st H1 H2 H3 H4. unfold sizes_ok. rewrite H1, H2, H3.
    do 4 (split; [reflexivity|]).
    split. { intros row [<-|[<-|[<-|[]]]]; reflexivity. }
    do 3 (split; [reflexivity|]).
    split. { repeat constructor; cbn; intros H; repeat destruct H as [H|H]; try discriminate; auto. }
    split. { intros k [<-|[<-|[]]]; cbn; lia. }
    split; [reflexivity|]. intros _. eexists. split; [reflexivity|exact H4]. }
  split; [apply Hs; reflexivity|]. split; [apply Hs; reflexivity|].
  split; [repeat split|]. split; [apply Permutation_rev|]. split; [repeat split|].
  intros [|[|k]] [|[|k']] m H1 H2; cbn in H1, H2; try (destruct k; discriminate); try (destruct k'; discriminate);
    try reflexivity; injection H1 as <-; discriminate.
Qed.
