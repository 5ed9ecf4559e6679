(** * C52: histories of members over whole sessions

    The results a user reads off the accepted increments of all runs since build
    are, for every member, the answer of its material law to the sequence of its
    strains.  Vocabulary: SpecHistory.v, SpecMaterial.v (plastic law), SpecRun.v. *)
From Coq Require Import List ZArith Bool Arith Lia Reals Lra.
Import ListNotations.
From Verif Require Import Num NumR Vec Handlers Material Analysis Truss Equil Solver Run EditFacts SpecMech SpecBuild
  SpecSolver SpecState SpecRun RunProps SpecMaterial MaterialFacts MechFacts StiffFacts TangentFacts SpecHistory HistoryFacts PropShow NumFix ExRun.

(** ** Any number type, any member *)
(** Without the predictor: stresses and state variables of member [k] in the
    accepted increments are the run of its law through the strains in them. *)
Theorem C52_history : forall F (NF : Num F) argsortZ argsortF solve m ns ms bs fs m1 recs k b,
  argsort_ok argsortZ -> described m ns ms bs fs ->
  traced argsortF solve argsortZ no_predictor m m1 recs ->
  (0 < s_nstatev (m_set m1))%Z -> nth_error ms k = Some b ->
  law_run (mb_law b) (mb_mat b) (repeat f0 (Z.to_nat (s_nstatev (m_set m1))))
    (map (member_strain k) recs) (map (member_out k) recs).
Proof.
  intros F NF argsortZ argsortF solve m ns ms bs fs m1 recs k b HA Hd HT Hn Hb.
  destruct (session_history _ _ _ _ _ _ _ _ _ _ _ _ _ HA Hd HT Hn Hb) as (l' & _ & Hr & E & _).
  rewrite (E (fun st H => H)) in Hr. exact Hr.
Qed.
Print Assumptions C52_history.

(** With any settings: leaving out increments that show the state variables of the
    increment before (those in which the predictor succeeded), the same. *)
Theorem C52_predictor : forall F (NF : Num F) argsortZ argsortF solve P m ns ms bs fs m1 recs k b,
  argsort_ok argsortZ -> described m ns ms bs fs ->
  traced argsortF solve argsortZ P m m1 recs ->
  (0 < s_nstatev (m_set m1))%Z -> nth_error ms k = Some b ->
  let row0 := repeat f0 (Z.to_nat (s_nstatev (m_set m1))) in
  exists recs', kept k row0 recs recs' /\
    law_run (mb_law b) (mb_mat b) row0 (map (member_strain k) recs') (map (member_out k) recs').
Proof.
  intros F NF argsortZ argsortF solve P m ns ms bs fs m1 recs k b HA Hd HT Hn Hb row0.
  destruct (session_history _ _ _ _ _ _ _ _ _ _ _ _ _ HA Hd HT Hn Hb) as (l' & Hk & Hr & _). exists l'. auto.
Qed.
Print Assumptions C52_predictor.

(** The object in force, from which the next run starts, carries the state
    variables of the last accepted increment, whether or not the last run ended
    with a failed one. *)
Theorem C52_in_force : forall F (NF : Num F) argsortZ argsortF solve m ns ms bs fs m1 recs k b,
  argsort_ok argsortZ -> described m ns ms bs fs ->
  traced argsortF solve argsortZ no_predictor m m1 recs ->
  (0 < s_nstatev (m_set m1))%Z -> nth_error ms k = Some b ->
  exists u, m_built m1 = Some u /\
    member_row k (u_an u) = last (map (member_row k) recs) (repeat f0 (Z.to_nat (s_nstatev (m_set m1)))).
Proof.
  intros F NF argsortZ argsortF solve m ns ms bs fs m1 recs k b HA Hd HT Hn Hb.
  destruct (session_history _ _ _ _ _ _ _ _ _ _ _ _ _ HA Hd HT Hn Hb) as (l' & _ & _ & E & u & Eu & _ & _ & sv & E1 & E2).
  rewrite (E (fun st H => H)) in E2. exists u. split; [exact Eu|]. unfold member_row at 1. rewrite E1. now apply nth_error_nth.
Qed.
Print Assumptions C52_in_force.

(** Every session whose runs have at least one step has such a sequence of
    accepted increments. *)
Theorem C52_traced : forall F (NF : Num F) argsortZ argsortF solve (P : settings F -> Prop) m ns ms bs fs m1,
  argsort_ok argsortZ -> described m ns ms bs fs -> (forall st, P st -> (0 < s_nsteps st)%Z) ->
  session argsortF solve argsortZ P m m1 -> (0 < s_nstatev (m_set m1))%Z ->
  exists recs, traced argsortF solve argsortZ P m m1 recs.
Proof. intros F NF argsortZ argsortF solve P m ns ms bs fs m1. apply session_traced. Qed.
Print Assumptions C52_traced.

(** ** Exact arithmetic, plastic members *)
Local Open Scope R_scope.

(** A plastic member follows the plastic law through the strains of all accepted
    increments of all runs since build. *)
Theorem C52_plastic : forall argsortZ argsortF solve m ns ms bs fs m1 recs k b E K Sy rest,
  argsort_ok argsortZ -> described m ns ms bs fs ->
  traced argsortF solve argsortZ no_predictor m m1 recs ->
  (0 < s_nstatev (m_set m1))%Z -> nth_error ms k = Some b ->
  mb_law b = UmatPl -> mb_mat b = E :: K :: Sy :: rest ->
  mat_run [E; K; Sy] (map (member_strain k) recs) (map (plastic_out k) recs).
Proof.
  intros argsortZ argsortF solve m ns ms bs fs m1 recs k b E K Sy rest HA Hd HT Hn Hb Hl Hm.
  pose proof (C52_history _ _ _ _ _ _ _ _ _ _ _ _ _ _ HA Hd HT Hn Hb) as H. rewrite Hl, Hm in H.
  apply law_plastic in H. rewrite map_map in H. exact H.
Qed.
Print Assumptions C52_plastic.

(** So in every accepted increment the stress is within the yield stress, it is E
    times the elastic part of the strain, and the yield stress is the initial one
    plus K times the plastic strain accumulated since build; it never falls. *)
Theorem C52_admissible : forall argsortZ argsortF solve m ns ms bs fs m1 pre a post k b E K Sy rest,
  0 < E -> 0 <= K -> 0 < Sy -> argsort_ok argsortZ -> described m ns ms bs fs ->
  traced argsortF solve argsortZ no_predictor m m1 (pre ++ a :: post) ->
  (0 < s_nstatev (m_set m1))%Z -> nth_error ms k = Some b ->
  mb_law b = UmatPl -> mb_mat b = E :: K :: Sy :: rest ->
  Rabs (m_stress (plastic_out k a)) <= m_yield (plastic_out k a) /\ Sy <= m_yield (plastic_out k a) /\
  m_stress (plastic_out k a) = E * (member_strain k a - m_epl (plastic_out k a)) /\
  m_yield (plastic_out k a) = Sy + K * accumulated 0 (map (plastic_out k) (pre ++ [a])) /\
  forall a', In a' pre -> m_yield (plastic_out k a') <= m_yield (plastic_out k a).
Proof.
  intros argsortZ argsortF solve m ns ms bs fs m1 pre a post k b E K Sy rest HE HK HS HA Hd HT Hn Hb Hl Hm.
  apply (admissible E K Sy (member_strain k) (plastic_out k) pre a post HE HK HS).
  eapply C52_plastic; eassumption.
Qed.
Print Assumptions C52_admissible.

(** ** The hypotheses are met *)
(** First run after build without an ERROR line: the accepted increments are the
    results but the first. *)
Lemma first_traced {F} `{Num F} argsortZ argsortF solve (P : settings F -> Prop) m m1 fuel m2 out u :
  build argsortZ m = Ok m1 -> P (m_set m1) -> (0 < s_nsteps (m_set m1))%Z ->
  run argsortF solve m1 fuel = Ok (m2, out) -> (forall e, In e out -> ~ error_line e) -> m_built m2 = Some u ->
  traced argsortF solve argsortZ P m m2 (tl (u_R u)).
Proof.
  intros Hb HP Hn Hr Ho Eu. destruct (run_ran_as _ _ _ _ _ _ Hr Hn) as (logs & HL).
  pose proof HL as (_ & _ & _ & u1 & nh & eh & fh & r0 & rest & u' & B1 & _ & _ & _ & B5 & B6 & _ & B8 & _ & B10 & _).
  assert (u' = u) by congruence. subst u'.
  destruct (build_first _ _ _ Hb) as (ub & rb & Eb & ER & _). assert (ub = u1) by congruence. subst ub.
  rewrite ER in B5, B8. injection B5 as <- <-. cbn [removelast app] in B8. rewrite B8. cbn [tl].
  replace (concat (map lg_results logs)) with ([] ++ map snd (concat (map lg_recs logs))).
  2:{ cbn [app]. unfold lg_results. rewrite concat_map, map_map. reflexivity. }
  eapply t_run; [apply t_build; exact Hb|exact HP|exact HL|].
  rewrite B10 in Ho. clear - Ho. induction logs as [|lg logs IH]; constructor.
  - left. split; [reflexivity|]. intros e He. apply Ho. cbn [map concat]. apply in_app_iff. now left.
  - apply IH. intros e He. apply Ho. cbn [map concat]. apply in_app_iff. now right.
Qed.

(** Two steps of three increments: the second member, a plastic one, flows. *)
Example C52_meets : exists m1 m2 u b a,
  described (xr_at (xr_settings 8 8 false false None 8 3 2)) xr_ns xr_ms xr_bs xr_fs /\
  build argsort_ins (xr_at (xr_settings 8 8 false false None 8 3 2)) = Ok m1 /\
  traced argsort_fx gauss argsort_ins no_predictor (xr_at (xr_settings 8 8 false false None 8 3 2)) m2 (tl (u_R u)) /\
  m_built m2 = Some u /\ length (tl (u_R u)) = 6%nat /\ (0 < s_nstatev (m_set m2))%Z /\
  nth_error xr_ms 1 = Some b /\ mb_law b = UmatPl /\
  In a (tl (u_R u)) /\ nth 1 (member_row 1 a) f0 <> f0.
Proof.
  pose (test := fun (m1 m2 : model fix_) (out : list msg) =>
    forallb (fun e => match e with MError1 | MError2 => false | _ => true end) out &&
    (0 <? s_nsteps (m_set m1))%Z && negb (s_jpre (m_set m1)) && (0 <? s_nstatev (m_set m2))%Z &&
    on_built false (fun u => (length (tl (u_R u)) =? 6)%nat &&
      existsb (fun a => negb (eq_fix (nth 1 (member_row 1 a) f0) f0)) (tl (u_R u))) m2).
  destruct (xr_tested (xr_settings 8 8 false false None 8 3 2) test) as (m1 & m2 & out & Hb & Hr & Ht);
    [vm_compute; reflexivity|].
  unfold test, on_built in Ht. destruct (m_built m2) as [u|] eqn:Eu; [|rewrite !andb_false_r in Ht; discriminate].
  rewrite !andb_true_iff, Nat.eqb_eq, !Z.ltb_lt, negb_true_iff, existsb_exists in Ht.
  destruct Ht as ((((T1 & T2) & T3) & T4) & T5 & a & T6 & T7).
  exists m1, m2, u, (Mb 9 2 5 UmatPl [q 1 1; q 1 10; q 1 50] [f1]), a.
  split; [apply xr_described|]. split; [exact Hb|]. split.
  { eapply first_traced; [exact Hb|left; exact T3|exact T2|exact Hr| |exact Eu].
    intros e He. rewrite forallb_forall in T1. specialize (T1 e He). intros [X|X]; rewrite X in T1; discriminate. }
  split; [exact Eu|]. split; [exact T5|]. split; [exact T4|]. split; [reflexivity|]. split; [reflexivity|].
  split; [exact T6|]. intros X. rewrite X in T7. unfold eq_fix in T7. rewrite Z.eqb_refl in T7. discriminate.
Qed.
