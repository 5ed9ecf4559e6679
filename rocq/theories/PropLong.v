(** * C63 longer analyses extend shorter ones

    Asking for more increments in the last step, for a wider or no limit there, or for
    more steps does not change the results before.  For every number type and every
    linear solver.  Vocabulary: SpecLong.v. *)
From Coq Require Import List ZArith Bool Arith Lia.
Import ListNotations.
From Verif Require Import Num Vec Handlers Analysis Solver Run SpecRun SpecLong LongFacts NumFix EditFacts ExRun.

(** The results of the run that asks for less are the first results of the run that
    asks for more, and so are the load factors at the ends of its steps but the last;
    its lines are the first lines, apart from a last one saying that the limit is
    reached. *)
Theorem C63_longer : forall F (NF : Num F) argsortF solve (m : model F) st st' fuel m2 out m2' out',
  asks_less st st' ->
  run argsortF solve (with_settings st m) fuel = Ok (m2, out) ->
  run argsortF solve (with_settings st' m) fuel = Ok (m2', out') ->
  exists u u', m_built m2 = Some u /\ m_built m2' = Some u' /\
    prefix (u_R u) (u_R u') /\ prefix (removelast (u_lpf_end u)) (u_lpf_end u') /\
    (prefix out out' \/ exists o, out = o ++ [MExit1] /\ prefix o out').
Proof.
  intros F NF argsortF solve m st st' fuel m2 out m2' out' Hl H H'.
  pose proof (run_longer argsortF solve m st st' fuel Hl) as G. rewrite H in G.
  destruct (G _ _ H') as (u & u' & E & E' & G1 & G2 & G3). exists u, u'. auto.
Qed.
Print Assumptions C63_longer.

(** If the run that asks for more works, so does the one that asks for less; if the
    one that asks for less raises, the other raises the same exception. *)
Theorem C63_works : forall F (NF : Num F) argsortF solve (m : model F) st st' fuel,
  asks_less st st' ->
  (forall m2' out', run argsortF solve (with_settings st' m) fuel = Ok (m2', out') ->
     exists m2 out, run argsortF solve (with_settings st m) fuel = Ok (m2, out)) /\
  (forall e, run argsortF solve (with_settings st m) fuel = Err e ->
     run argsortF solve (with_settings st' m) fuel = Err e).
Proof.
  intros F NF argsortF solve m st st' fuel Hl. pose proof (run_longer argsortF solve m st st' fuel Hl) as G.
  split.
  - intros m2' out' H. destruct (run argsortF solve (with_settings st m) fuel) as [[m2 out]|e|]; [eauto| |]; rewrite H in G; discriminate.
  - intros e H. rewrite H in G. exact G.
Qed.
Print Assumptions C63_works.

(** ** The hypotheses are met *)
(** Two increments in one step and four increments in each of two steps. *)
Definition xl_short : settings fix_ := with_nstatev 2 (xr_settings 8 8 true false None 8 2 1).
Definition xl_long : settings fix_ := with_nstatev 2 (xr_settings 8 8 true false None 8 4 2).

Lemma xl_less : asks_less xl_short xl_long.
Proof.
  split; [reflexivity|]. cbv zeta. split; [cbn; lia|]. intros k Hk. change (k < 1)%nat in Hk. assert (k = 0%nat) by lia. subst k.
  eexists _, _, _, _. do 4 (split; [reflexivity|]). right. split; [reflexivity|]. split; [cbn; lia|]. apply tighter_refl.
Qed.

(** Both runs succeed, with 3 and 9 results. *)
Definition xl_test (r : res (model fix_)) (go : settings fix_ -> model fix_ -> res (model fix_ * list msg)) : bool :=
  match r with
  | Ok mb => match go xl_short mb, go xl_long mb with
             | Ok (m2, _), Ok (m2', _) => on_built false (fun u => Nat.eqb (length (u_R u)) 3) m2 && on_built false (fun u => Nat.eqb (length (u_R u)) 9) m2'
             | _, _ => false
             end
  | _ => false
  end.
Lemma xl_passed r go : xl_test r go = true -> exists mb m2 out m2' out' u u', r = Ok mb /\
  go xl_short mb = Ok (m2, out) /\ go xl_long mb = Ok (m2', out') /\
  m_built m2 = Some u /\ m_built m2' = Some u' /\ length (u_R u) = 3%nat /\ length (u_R u') = 9%nat.
Proof.
  unfold xl_test. destruct r as [mb| |]; try discriminate.
  destruct (go xl_short mb) as [[m2 out]| |] eqn:E1; try discriminate. destruct (go xl_long mb) as [[m2' out']| |] eqn:E2; try discriminate.
  intros H. apply andb_true_iff in H. destruct H as [H1 H2]. unfold on_built in H1, H2.
  destruct (m_built m2) as [u|] eqn:Eu; [|discriminate H1]. destruct (m_built m2') as [u'|] eqn:Eu'; [|discriminate H2].
  apply Nat.eqb_eq in H1. apply Nat.eqb_eq in H2. exists mb, m2, out, m2', out', u, u'. auto 10.
Qed.
Lemma xl_tested : xl_test (build argsort_ins (xr_at xl_short)) (fun st mb => run argsort_fx gauss (with_settings st mb) 40) = true.
Proof. vm_compute. reflexivity. Qed.

Example C63_longer_meets : exists mb m2 out m2' out' u u', asks_less xl_short xl_long /\
  build argsort_ins (xr_at xl_short) = Ok mb /\
  run argsort_fx gauss (with_settings xl_short mb) 40 = Ok (m2, out) /\
  run argsort_fx gauss (with_settings xl_long mb) 40 = Ok (m2', out') /\
  m_built m2 = Some u /\ m_built m2' = Some u' /\ length (u_R u) = 3%nat /\ length (u_R u') = 9%nat.
Proof.
  destruct (xl_passed _ _ xl_tested) as (mb & m2 & out & m2' & out' & u & u' & H).
  exists mb, m2, out, m2', out', u, u'. split; [apply xl_less|]. exact H.
Qed.
