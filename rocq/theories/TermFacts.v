(** * A run ends, and how much fuel it is given does not matter *)
From Coq Require Import List ZArith Bool Arith Lia Reals Lra.
Import ListNotations.
From Verif Require Import Num NumR Vec Handlers Material Analysis Truss Equil Solver Run SpecStep StepFacts.

(** ** Only loops that run out of fuel time out *)
Lemma bind_nt {A B} (r : res A) (k : A -> res B) : r <> Timeout -> (forall a, k a <> Timeout) -> bind r k <> Timeout.
Proof. intros H1 H2. destruct r; cbn; auto; discriminate. Qed.

Lemma foldM_nt {A S} (f : S -> A -> res S) l s : (forall s a, f s a <> Timeout) -> foldM f l s <> Timeout.
Proof. intros H. revert s. induction l as [|a l IH]; intros s; cbn; [discriminate|]. apply bind_nt; auto. Qed.

Lemma gather_nt {A} (a : list A) idx : gather a idx <> Timeout.
Proof.
  induction idx as [|i l IH]; cbn; [discriminate|]. destruct (nth_error a i); [|discriminate].
  apply bind_nt; [exact IH|discriminate].
Qed.

Lemma gather0_nt {A} (a : list A) idx : gather0 a idx <> Timeout.
Proof. apply bind_nt; [apply gather_nt|]. intros [|x l]; discriminate. Qed.

Lemma put_nt {A} (a : list A) idx v : put a idx v <> Timeout.
Proof. unfold put. destruct (forallb _ _); discriminate. Qed.

Lemma item_nt {A} (l : list A) i : item l i <> Timeout.
Proof. unfold item. destruct (nth_error l i); discriminate. Qed.

Lemma scatter_nt {A} (a : list (v3 A)) dof vals : scatter a dof vals <> Timeout.
Proof.
  unfold scatter. destruct (forallb _ _); [|discriminate]. destruct (_ =? _)%nat; [discriminate|].
  destruct vals as [|x [|y l]]; discriminate.
Qed.

Ltac nt := repeat
  first [ discriminate | assumption
        | apply gather_nt | apply gather0_nt | apply put_nt | apply item_nt | apply scatter_nt | apply bcast2_nt | apply py_get_nt
        | apply bind_nt; [|intros ?] | apply foldM_nt; intros ? ?
        | match goal with
          | |- (if ?b then _ else _) <> Timeout => destruct b
          | |- context [match ?x with _ => _ end] => destruct x
          end ].

Section Callbacks.
  Context {F : Type} `{NF : Num F}.

  Lemma umat_nt u (e de : F) mp sv : umat u e de mp sv <> Timeout.
  Proof. destruct u; cbn [umat]; unfold umat_el, umat_elplast_iso; cbv zeta; nt. Qed.

  Lemma K_add_nt (K : list (list (m3 F))) a b M : K_add K a b M <> Timeout.
  Proof. unfold K_add. nt. Qed.

  Lemma first_pos_nt l labels : first_pos l labels <> Timeout.
  Proof. unfold first_pos. nt. Qed.

  Lemma truss_nt e NA NE (XA XE UA UE U0A U0E rA rE : v3 F) nl el st sv mp gp u an :
    truss e NA NE XA XE UA UE U0A U0E rA rE nl el st sv mp gp u an <> Timeout.
  Proof.
    unfold truss, truss_quantities. cbv zeta. apply bind_nt; [nt|]. intros s. apply bind_nt.
    { apply bind_nt; [apply umat_nt|]. intros [[? ?] ?]. nt. }
    intros q. destruct st.
    - nt.
    - repeat (apply bind_nt; [apply first_pos_nt || apply K_add_nt|intros ?]). discriminate.
  Qed.

  Lemma elem_loop_nt c st Ured (lpf : F) w an : elem_loop c st Ured lpf w an <> Timeout.
  Proof.
    unfold elem_loop. apply bind_nt; [|discriminate]. apply foldM_nt. intros [a u] e. unfold elem_step. cbn [fst snd].
    unfold get_nodes, get_material_properties, get_geometric_properties, node_row, get_material_type.
    apply bind_nt; [apply gather0_nt|]. intros [NA NE].
    repeat (apply bind_nt; [apply gather0_nt|intros ?]). apply bind_nt; [nt|]. intros sv.
    repeat (apply bind_nt; [apply gather0_nt|intros ?]). destruct (select_umat _ _); [|discriminate].
    apply bind_nt; [apply truss_nt|]. intros [? ?]. discriminate.
  Qed.

  Lemma prepare_nt c st (V V0 : list F) an : equil_prepare c st V V0 an <> Timeout.
  Proof. unfold equil_prepare. cbv zeta. apply bind_nt; [apply scatter_nt|]. intros ?. apply bind_nt; [apply scatter_nt|discriminate]. Qed.

  Lemma callbacks_nt c : no_timeout (fun V V0 w a => equilibrium c V V0 w a) (fun U a => stiffness (F:=F) c U a).
  Proof.
    split.
    - intros V V0 w an. unfold equilibrium. apply bind_nt; [apply prepare_nt|]. intros [[a1 U] l]. apply bind_nt; [apply elem_loop_nt|]. intros a2. nt.
    - intros U an. unfold stiffness. apply bind_nt; [apply prepare_nt|]. intros [[a1 V] l]. apply bind_nt; [apply elem_loop_nt|]. intros a2. unfold select2. nt.
  Qed.
End Callbacks.

(** ** A run ends if its path following does *)
Section Ends.
  Context {F : Type} `{NF : Num F}.
  Variables (argsortF : list F -> list nat) (solve : list (list F) -> list F -> list F).

  Lemma setup_nt rows step (s : runst F) : step_setup rows step s <> Timeout.
  Proof.
    unfold step_setup. apply bind_nt.
    - unfold const_forces. apply foldM_nt. intros a i. destruct (nth_error _ _); [|discriminate]. unfold add_scaled. destruct (forallb _ _); discriminate.
    - intros fc. cbv zeta. apply bind_nt; [apply gather_nt|discriminate].
  Qed.

  Lemma run_ends (m : model F) fuel :
    (forall c an xlimit incs,
       pathfollow solve argsortF (fun V V0 w a => equilibrium c V V0 w a) (fun U a => stiffness c U a)
         (a_Ured an) an (DxVec [s_du (m_set m); s_dlpf (m_set m)]) (s_j0 (m_set m)) (s_jpre (m_set m)) (pf_config (m_set m) xlimit incs) fuel <> Timeout) ->
    run argsortF solve m fuel <> Timeout.
  Proof.
    intros H. unfold run. cbv zeta. destruct ((1 <? _)%Z && _); [discriminate|]. destruct ((1 <? _)%Z && _ && _); [discriminate|].
    destruct (m_built m) as [u|]; [|discriminate]. destruct (m_nodes m); [|discriminate]. destruct (m_elems m); [|discriminate].
    destruct (m_forces m); [|discriminate]. destruct (u_R u); [discriminate|]. apply bind_nt; [|discriminate].
    apply foldM_nt. intros s step. unfold run_step. apply bind_nt; [unfold at_step; nt|]. intros incs. apply bind_nt.
    { destruct (s_xlimit (m_set m)) as [?|[|? ?]]; unfold at_step; nt. }
    intros xl. apply bind_nt; [apply setup_nt|]. intros an. apply bind_nt; [apply H|]. intros pf. cbv zeta. apply bind_nt; [nt|]. intros ?. destruct (Nat.ltb _ _); discriminate.
  Qed.
End Ends.

(** ** More fuel does not change the result *)
Definition upto {A} (r r' : res A) : Prop := r = Timeout \/ r' = r.

Lemma upto_refl {A} (r : res A) : upto r r.
Proof. now right. Qed.

Lemma upto_bind {A B} (r r' : res A) (k k' : A -> res B) : upto r r' -> (forall a, upto (k a) (k' a)) -> upto (bind r k) (bind r' k').
Proof.
  intros [-> | ->] H; [now left|]. destruct r as [a|e|]; cbn; [apply H|now right|now left].
Qed.

Section More.
  Context {F : Type} `{NF : Num F}.
  Variables (argsortF : list F -> list nat) (solve : list (list F) -> list F -> list F).

  Lemma recycle_more g dg (cfg : pfcfg F) x0 dxmax0 pre fuel fuel' s : (fuel <= fuel')%nat ->
    upto (recycle solve argsortF g dg cfg x0 dxmax0 pre fuel s) (recycle solve argsortF g dg cfg x0 dxmax0 pre fuel' s).
  Proof.
    revert fuel' s. induction fuel as [|fuel IH]; intros fuel' s H; [now left|]. destruct fuel' as [|fuel']; [lia|]. cbn [recycle]. cbv zeta.
    repeat (apply upto_bind; [apply upto_refl|intros ?]).
    repeat match goal with
    | |- upto (let '(_, _) := ?x in _) _ => destruct x
    | |- upto (match ?x with _ => _ end) _ => destruct x
    | |- upto (bind _ _) _ => apply upto_bind; [apply upto_refl|intros ?]
    end; try apply upto_refl. apply IH. lia.
  Qed.

  Lemma increment_more g dg (cfg : pfcfg F) dxmax0 fuel fuel' s : (fuel <= fuel')%nat ->
    upto (increment solve argsortF g dg cfg dxmax0 fuel s) (increment solve argsortF g dg cfg dxmax0 fuel' s).
  Proof.
    intros H. unfold increment. cbv zeta. destruct (ps_jpre s && negb (cf_jfixed cfg)).
    - apply upto_bind; [apply upto_refl|]. intros p. destruct (pr_success p); [apply upto_refl|].
      apply upto_bind; [apply recycle_more, H|]. intros [[r x] stop]. apply upto_refl.
    - apply upto_bind; [apply recycle_more, H|]. intros [[r x] stop]. apply upto_refl.
  Qed.

  Lemma increments_more g dg (cfg : pfcfg F) dxmax0 fuel fuel' k s : (fuel <= fuel')%nat ->
    upto (increments solve argsortF g dg cfg dxmax0 fuel k s) (increments solve argsortF g dg cfg dxmax0 fuel' k s).
  Proof.
    intros H. revert s. induction k as [|k IH]; intros s; cbn [increments]; [apply upto_refl|].
    apply upto_bind; [apply increment_more, H|]. intros [s1 [|]]; [apply upto_refl|]. apply upto_bind; [apply upto_refl|]. intros [|]; [apply upto_refl|apply IH].
  Qed.

  Lemma pathfollow_more g dg Ured an d j jpre (cfg : pfcfg F) fuel fuel' : (fuel <= fuel')%nat ->
    upto (pathfollow solve argsortF g dg Ured an d j jpre cfg fuel) (pathfollow solve argsortF g dg Ured an d j jpre cfg fuel').
  Proof.
    intros H. unfold pathfollow. cbv zeta. destruct (negb (cf_jfixed cfg)); [apply increments_more, H|].
    destruct j; [apply increments_more, H|apply upto_refl].
  Qed.

  Lemma run_more (m : model F) fuel fuel' : (fuel <= fuel')%nat -> upto (run argsortF solve m fuel) (run argsortF solve m fuel').
  Proof.
    intros H. unfold run. cbv zeta. destruct ((1 <? _)%Z && _); [apply upto_refl|]. destruct ((1 <? _)%Z && _ && _); [apply upto_refl|].
    destruct (m_built m) as [u|]; [|apply upto_refl]. destruct (m_nodes m); [|apply upto_refl]. destruct (m_elems m); [|apply upto_refl].
    destruct (m_forces m); [|apply upto_refl]. destruct (u_R u); [apply upto_refl|]. apply upto_bind; [|intros; apply upto_refl].
    match goal with |- upto (foldM _ _ ?s) _ => generalize s end.
    match goal with |- forall s, upto (foldM _ ?l _) _ => generalize l end. intros l'. 
    induction l' as [|i l' IH]; intros s; cbn [foldM]; [apply upto_refl|]. apply upto_bind; [|intros; apply IH].
    unfold run_step. repeat (apply upto_bind; [apply upto_refl|intros ?]). apply upto_bind; [apply pathfollow_more, H|intros; apply upto_refl].
  Qed.
End More.

(** ** Settings with which every run ends *)
Lemma run_plain {F} `{NF : Num F} argsortF solve (m : model F) fuel : s_stepcontrol (m_set m) = false -> (1 <= s_cycl (m_set m))%Z ->
  (Z.to_nat (s_cycl (m_set m)) <= fuel)%nat -> run argsortF solve m fuel <> Timeout.
Proof.
  intros H1 H2 H3. apply run_ends. intros c an xl incs. apply plain_terminates; [apply callbacks_nt|exact H1|exact H2|exact H3].
Qed.

Local Open Scope R_scope.

Lemma run_controlled argsortF solve (m : model R) fuel N : let st := m_set m in
  s_stepcontrol st = true -> (1 <= s_cycl st)%Z -> 0 < s_minfac st <= 1 -> 1 <= s_maxfac st -> 1 < s_reduce st -> 0 <= s_increase st -> 0 < s_du st -> 0 < s_dlpf st ->
  s_maxfac st * (1 + s_increase st) <= s_minfac st * s_reduce st ^ N -> (Z.to_nat (s_cycl st) * (N + 1) <= fuel)%nat -> run argsortF solve m fuel <> Timeout.
Proof.
  intros st H1 H2 H3 H4 H5 H6 H7 H8 H9 H10. apply run_ends. fold st. intros c an xl incs. apply control_terminates with (N := N); try assumption.
  - apply callbacks_nt.
  - unfold control_params. cbn. repeat split; lra.
  - cbn [pf_config cf_minfac]. lra.
  - intros v Hv. unfold expand_dxmax in Hv. rewrite app_length in Hv. cbn [length] in Hv. replace (length (a_Ured an) + 1 - 1)%nat with (length (a_Ured an)) in Hv by lia.
    destruct (a_Ured an) as [|y l]; cbn in Hv; injection Hv as <-; numR; lra.
Qed.
