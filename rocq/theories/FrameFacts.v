(** * What an evaluation of the residual or the stiffness leaves alone *)
From Coq Require Import List ZArith Bool Arith Lia.
Import ListNotations.
From Verif Require Import Num Vec Handlers Material Analysis Truss Equil ListFacts SpecMech EquilFacts SpecState.

Section Frame.
  Context {F : Type} `{NF : Num F}.
  Implicit Types (c : ctx F) (a : analysis F).

  (** Fields no element evaluation touches. *)
  Definition efix a a' : Prop :=
    a_U a' = a_U a /\ a_U0 a' = a_U0 a /\ a_step a' = a_step a /\ a_g a' = a_g a /\
    a_DOF0 a' = a_DOF0 a /\ a_DOF1 a' = a_DOF1 a /\ a_Ured a' = a_Ured a /\
    a_dVmax a' = a_dVmax a /\ a_j a' = a_j a /\ a_Kred a' = a_Kred a /\ a_Kmod a' = a_Kmod a /\
    a_f0red a' = a_f0red a /\ a_fconst a' = a_fconst a /\ a_forces a' = a_forces a.

  Definition eloop (st : stage) (w : bool) a a' : Prop :=
    efix a a' /\
    (w = false -> a_state a' = a_state a /\ a_lpf a' = a_lpf a /\ a_Vred a' = a_Vred a) /\
    (st = StG -> a_K a' = a_K a) /\
    (st = StK -> a_r a' = a_r a /\ a_stretch a' = a_stretch a /\ a_force a' = a_force a /\ a_stress a' = a_stress a).

  Lemma eloop_refl st w a : eloop st w a a.
  Proof. unfold eloop, efix. repeat split. Qed.

  Lemma eloop_trans st w a b d : eloop st w a b -> eloop st w b d -> eloop st w a d.
  Proof.
    unfold eloop, efix. intros (H1 & H2 & H3 & H4) (G1 & G2 & G3 & G4).
    repeat match goal with H : _ /\ _ |- _ => destruct H end.
    split; [repeat split; congruence|]. split; [|split].
    - intros E. destruct (H2 E) as (? & ? & ?), (G2 E) as (? & ? & ?). repeat split; congruence.
    - intros E. rewrite (G3 E). auto.
    - intros E. destruct (H4 E) as (? & ? & ? & ?), (G4 E) as (? & ? & ? & ?). repeat split; congruence.
  Qed.

  Lemma truss_frame e NA NE XA XE UA UE U0A U0E rA rE nl el st sv mat geo u a a' sv' :
    truss e NA NE XA XE UA UE U0A U0E rA rE nl el st sv mat geo u a = Ok (a', sv') ->
    match st with
    | StG => exists r frc sts str, a' = set_r r (set_force frc (set_stress sts (set_stretch str a)))
    | StK => exists K, a' = set_K K a
    end.
  Proof.
    intros H. unfold truss in H. mstep H. mstep H. destruct st.
    - repeat mstep H. injection H as <- _. do 4 eexists. reflexivity.
    - repeat mstep H. injection H as <- _. eexists. reflexivity.
  Qed.

  Lemma elem_step_frame c st Ured lpf w s e s' :
    elem_step c st Ured lpf w s e = Ok s' -> eloop st w (fst s) (fst s').
  Proof.
    destruct s as [a u]. intros H. unfold elem_step in H. cbn [fst snd] in H.
    apply bind_ok in H. destruct H as ([NA NE] & _ & H).
    do 11 (apply bind_ok in H; destruct H as (? & _ & H)).
    apply bind_ok in H. destruct H as (mt & _ & H).
    destruct (select_umat u mt) as [u'|]; [|discriminate].
    apply bind_ok in H. destruct H as ([a1 sv'] & Ht & H). injection H as <-. cbn [fst].
    apply truss_frame in Ht. unfold eloop, efix.
    destruct st.
    - destruct Ht as (r & frc & sts & str & ->). destruct w; cbn [andb];
        destruct (0 <? c_nstatev c)%Z; cbn; repeat split; discriminate.
    - destruct Ht as (K & ->). destruct w; cbn [andb];
        destruct (0 <? c_nstatev c)%Z; cbn; repeat split; discriminate.
  Qed.

  Lemma elem_loop_frame c st Ured lpf w a a' :
    elem_loop c st Ured lpf w a = Ok a' -> eloop st w a a'.
  Proof.
    intros H. unfold elem_loop in H. apply bind_ok in H. destruct H as (s & H & E). injection E as <-.
    assert (G : eloop st w a (fst (a, @None umat_id))) by apply eloop_refl.
    revert H G. generalize (a, @None umat_id). generalize (el_labels (c_elems c)).
    induction l as [|e l IH]; intros s0 H G; cbn [foldM] in H.
    - injection H as <-. exact G.
    - apply bind_ok in H. destruct H as (s1 & H1 & H).
      apply elem_step_frame in H1. eapply IH; [exact H|]. eapply eloop_trans; eassumption.
  Qed.

  Definition ext_disp c (V : list F) : list F :=
    if Nat.ltb (c_ndof1 c) (length V) then firstn (c_ndof1 c) V else V.
  Definition ext_lpf c (V : list F) (l : F) : F :=
    if Nat.ltb (c_ndof1 c) (length V) then last V f0 else l.

  (** Everything an evaluation of the residual does outside the element loop. *)
  Lemma equilibrium_parts c V V0 w a a' gr :
    equilibrium c V V0 w a = Ok (a', gr) ->
    exists U U0 a2,
      scatter (a_U a) (a_DOF1 a) (ext_disp c V) = Ok U /\
      scatter (a_U0 a) (a_DOF1 a) (if Nat.ltb (c_ndof1 c) (length V) then firstn (c_ndof1 c) V0 else V0) = Ok U0 /\
      let lpf := ext_lpf c V (a_lpf a) in
      elem_loop c StG (ext_disp c V) lpf w
        (set_U0 U0 (set_U U (set_r (map (fun _ => vzero) (a_r a)) a))) = Ok a2 /\
      (exists s1, bcast2 fadd (map fopp (vflat (a_r a2))) (concat (a_fconst a2)) = Ok s1 /\
         bcast2 fadd s1 (map (fmul lpf) (concat (a_forces a2))) = Ok (a_g a')) /\
      gather (a_g a') (a_DOF1 a2) = Ok gr /\ a' = set_g (a_g a') a2.
  Proof.
    intros H. unfold equilibrium, equil_prepare in H. cbv zeta in H.
    apply bind_ok in H. destruct H as ([[a1 Ured] lpf] & Hp & H).
    apply bind_ok in Hp. destruct Hp as (U & HU & Hp).
    apply bind_ok in Hp. destruct Hp as (U0 & HU0 & Hp). injection Hp as <- <- <-.
    apply bind_ok in H. destruct H as (a2 & Hl & H).
    apply bind_ok in H. destruct H as (s1 & Hs1 & H).
    apply bind_ok in H. destruct H as (g & Hg & H).
    apply bind_ok in H. destruct H as (gred & Hgr & H). injection H as <- <-.
    exists U, U0, a2. repeat split; try assumption. exists s1. split; assumption.
  Qed.

  Lemma stiffness_parts c V a a' K :
    stiffness c V a = Ok (a', K) ->
    exists U U0 a2,
      scatter (a_U a) (a_DOF1 a) (ext_disp c V) = Ok U /\
      scatter (a_U0 a) (a_DOF1 a) (ext_disp c V) = Ok U0 /\
      elem_loop c StK (ext_disp c V) (ext_lpf c V (a_lpf a)) false
        (set_U0 U0 (set_U U (set_K (map (map (fun _ => mzero)) (a_K a)) a))) = Ok a2 /\
      select2 (flat_K (a_K a2)) (a_DOF1 a2) = Ok K /\ a' = set_Kred K a2.
  Proof.
    intros H. unfold stiffness, equil_prepare in H. cbv zeta in H.
    apply bind_ok in H. destruct H as ([[a1 Ured] lpf] & Hp & H).
    apply bind_ok in Hp. destruct Hp as (U & HU & Hp).
    apply bind_ok in Hp. destruct Hp as (U0 & HU0 & Hp). injection Hp as <- <- <-.
    apply bind_ok in H. destruct H as (a2 & Hl & H).
    apply bind_ok in H. destruct H as (Kr & HKr & H). injection H as <- <-.
    exists U, U0, a2. repeat split; assumption.
  Qed.

  (** Same model data, and the displacement fields agree outside the active DOFs. *)
  Lemma same_refl a : same_setup a a.
  Proof. unfold same_setup. repeat split. Qed.

  Lemma same_trans a b d : same_setup a b -> same_setup b d -> same_setup a d.
  Proof.
    unfold same_setup. intros (H1 & H2 & H3 & H4 & H5 & H6 & H7 & H8 & H9 & H10)
      (G1 & G2 & G3 & G4 & G5 & G6 & G7 & G8 & G9 & G10).
    repeat split; try congruence; intros k Hk.
    - rewrite G9 by congruence. auto.
    - rewrite G10 by congruence. auto.
  Qed.

  Lemma equilibrium_same c V V0 w a a' gr :
    equilibrium c V V0 w a = Ok (a', gr) ->
    same_setup a a' /\ (w = false -> a_state a' = a_state a) /\
    scatter (a_U a) (a_DOF1 a) (ext_disp c V) = Ok (a_U a').
  Proof.
    intros H. apply equilibrium_parts in H.
    destruct H as (U & U0 & a2 & HU & HU0 & Hl & _ & _ & Ea).
    apply elem_loop_frame in Hl. rewrite Ea. clear Ea.
    destruct Hl as ((E1 & E2 & E3 & E4 & E5 & E6 & E7 & E8 & E9 & E10 & E11 & E12 & E13 & E14) & Hw & _).
    cbn in *. split; [|split].
    - unfold same_setup. cbn. rewrite E1, E2. repeat split; try assumption.
      + eapply scatter_length; eassumption.
      + eapply scatter_length; eassumption.
      + intros k Hk. eapply scatter_frame; eassumption.
      + intros k Hk. eapply scatter_frame; eassumption.
    - intros E. apply Hw, E.
    - congruence.
  Qed.

  Lemma stiffness_same c V a a' K :
    stiffness c V a = Ok (a', K) -> same_setup a a' /\ a_state a' = a_state a.
  Proof.
    intros H. apply stiffness_parts in H.
    destruct H as (U & U0 & a2 & HU & HU0 & Hl & _ & Ea).
    apply elem_loop_frame in Hl. rewrite Ea. clear Ea.
    destruct Hl as ((E1 & E2 & E3 & E4 & E5 & E6 & E7 & E8 & E9 & E10 & E11 & E12 & E13 & E14) & Hw & _).
    cbn in *. split.
    - unfold same_setup. cbn. rewrite E1, E2. repeat split; try assumption.
      + eapply scatter_length; eassumption.
      + eapply scatter_length; eassumption.
      + intros k Hk. eapply scatter_frame; eassumption.
      + intros k Hk. eapply scatter_frame; eassumption.
    - apply Hw. reflexivity.
  Qed.
End Frame.
