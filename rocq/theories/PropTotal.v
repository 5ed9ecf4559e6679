(** * C71: a run of a complete model under usable settings does not raise *)
From Coq Require Import List ZArith Bool Arith Lia Permutation Reals Lra.
Import ListNotations.
From Verif Require Import Num NumR NumFix Binary64 Vec Handlers Material Analysis Truss Equil Solver Run ListFacts EditFacts SpecMech SpecBuild SpecRun SpecValid
  SpecStep StepFacts ExRun TermFacts PropTerm TotalFacts NeedRun MirrorGauss.

(** In any arithmetic a run of a built model, also after earlier runs and after
    changes of the settings, returns or is not given enough time.  The one exception
    there is belongs to an arithmetic with numbers that are not numbers, while the
    control component is free to change. *)
Theorem C71_run : forall F (NF : Num F) argsortZ argsortF solve P (m : model F) ns ms bs fs m1 u fuel,
  argsort_ok argsortZ -> (forall l, Permutation (argsortF l) (seq 0 (length l))) ->
  (forall M b, length M = length b -> length (solve M b) = length b) ->
  described m ns ms bs fs -> session argsortF solve argsortZ P m m1 -> (forall b, In b ms -> complete b) ->
  m_built m1 = Some u -> (1 <= u_ndof1 u)%nat -> usable (u_ndof1 u) (m_set m1) ->
  (forall fh r, m_forces m1 = Some fh -> In r (e_rows fh) -> (3 * Z.to_nat (s_nsteps (m_set m1)) <= length r)%nat) ->
  (exists m2 out, run argsortF solve m1 fuel = Ok (m2, out)) \/ run argsortF solve m1 fuel = Timeout \/
  (run argsortF solve m1 fuel = Err ValueError /\ s_jfixed (m_set m1) = false /\ exists v : F, fisnan v = true).
Proof.
  intros F NF argsortZ argsortF solve P m ns ms bs fs m1 u fuel HA Hsort Hsolve Hd HS Hc Eu Hn Hu Hw.
  pose proof (run_fine argsortZ argsortF solve Hsolve Hsort P m ns ms bs fs m1 u fuel HA Hd HS Hc Eu Hn Hu Hw) as H.
  destruct (run argsortF solve m1 fuel) as [[m2 out]|e|]; cbn in H; [eauto| |auto]. destruct H as (-> & H). auto.
Qed.
Print Assumptions C71_run.

(** Given its time, a run with a locked control component and without step control
    returns in any arithmetic. *)
Theorem C71_run_locked : forall F (NF : Num F) argsortZ argsortF solve P (m : model F) ns ms bs fs m1 u fuel,
  argsort_ok argsortZ -> (forall l, Permutation (argsortF l) (seq 0 (length l))) ->
  (forall M b, length M = length b -> length (solve M b) = length b) ->
  described m ns ms bs fs -> session argsortF solve argsortZ P m m1 -> (forall b, In b ms -> complete b) ->
  m_built m1 = Some u -> (1 <= u_ndof1 u)%nat -> usable (u_ndof1 u) (m_set m1) ->
  (forall fh r, m_forces m1 = Some fh -> In r (e_rows fh) -> (3 * Z.to_nat (s_nsteps (m_set m1)) <= length r)%nat) ->
  s_jfixed (m_set m1) = true -> s_stepcontrol (m_set m1) = false -> (1 <= s_cycl (m_set m1))%Z -> (Z.to_nat (s_cycl (m_set m1)) <= fuel)%nat ->
  exists m2 out, run argsortF solve m1 fuel = Ok (m2, out).
Proof.
  intros F NF argsortZ argsortF solve P m ns ms bs fs m1 u fuel HA Hsort Hsolve Hd HS Hc Eu Hn Hu Hw Hj Hs Hy Hf.
  destruct (C71_run F NF argsortZ argsortF solve P m ns ms bs fs m1 u fuel HA Hsort Hsolve Hd HS Hc Eu Hn Hu Hw) as [H|[H|(_ & H & _)]]; [exact H| |congruence].
  exfalso. exact (C30_run_plain F NF argsortF solve m1 fuel Hs Hy Hf H).
Qed.
Print Assumptions C71_run_locked.

(** The sample truss in double precision with the load factor as locked control
    component returns whatever numbers the solver finds. *)
Example C71_locked_meets : forall solve : list (list b64) -> list b64 -> list b64,
  (forall M b, length M = length b -> length (solve M b) = length b) ->
  exists m1 m2 out, build argsort_ins (xr_at (Settings (Same 10%Z) false f1 f1 f1 f1 f1 8 8 4 8 (q 1 200) (q 1 20) (Same (0%Z, None)) 0 (Some 3%Z) true true 0 2)) = Ok m1 /\
    run (fun l => seq 0 (length l)) solve m1 4 = Ok (m2, out).
Proof.
  intros solve Hsolve. set (st := Settings _ _ _ _ _ _ _ _ _ _ _ _ _ _ _ _ _ _ _ _).
  destruct (build argsort_ins (xr_at st)) as [m1|e|] eqn:Hb; [|exfalso; vm_compute in Hb; discriminate|exfalso; vm_compute in Hb; discriminate].
  pose proof Hb as Hb'. vm_compute in Hb'. destruct (m_built m1) as [u|] eqn:Eu; [|exfalso; injection Hb' as <-; discriminate].
  assert (Hset : m_set m1 = with_nstatev 2 st) by (injection Hb' as <-; reflexivity).
  assert (Hn : u_ndof1 u = 2%nat) by (injection Hb' as <-; cbn in Eu; injection Eu as <-; reflexivity).
  assert (Hrows : forall fh r, m_forces m1 = Some fh -> In r (e_rows fh) -> (6 <= length r)%nat).
  { injection Hb' as <-. cbn. intros fh r Ef. injection Ef as <-. cbn. intros [<- | [<- | [<- | []]]]; cbn; lia. }
  clear Hb'. destruct (C71_run_locked b64 _ argsort_ins (fun l => seq 0 (length l)) solve (fun _ => True) (xr_at st) _ _ _ _ m1 u 4 argsort_ins_ok (fun l => Permutation_refl _) Hsolve (xr_described st)) as (m2 & out & E);
    rewrite ?Hset, ?Hn; try (cbn; lia); try exact Eu; try reflexivity.
  - apply s_build. exact Hb.
  - intros b [<- | [<- | []]]; split; cbn; try discriminate; lia.
  - unfold usable. cbn. repeat split; try lia; try discriminate. intros _. exists 3%Z. split; [reflexivity|lia].
  - exact Hrows.
  - exists m1, m2, out. split; [reflexivity|exact E].
Qed.

(** The exception does occur: with a free control component the same truss raises if
    the solver answers as spsolve does for a singular matrix, by values that are not numbers. *)
Theorem C71_not_a_number_raises : let st := xr_settings (F:=b64) 8 8 true false None 8 10 2 in
  exists m1 u, build argsort_ins (xr_at st) = Ok m1 /\ m_built m1 = Some u /\ u_ndof1 u = 2%nat /\ usable 2 (m_set m1) /\
    run (fun l => seq 0 (length l)) (fun M b => map (fun _ => fnan) b) m1 40 = Err ValueError.
Proof.
  intros st. destruct (build argsort_ins (xr_at st)) as [m1|e|] eqn:Hb; [|exfalso; vm_compute in Hb; discriminate|exfalso; vm_compute in Hb; discriminate].
  assert (Hr : match build argsort_ins (xr_at st) with Ok m1 => run (fun l => seq 0 (length l)) (fun M b => map (fun _ => fnan) b) m1 40 | _ => Timeout end = Err ValueError) by (vm_compute; reflexivity).
  rewrite Hb in Hr. pose proof Hb as Hb'. vm_compute in Hb'. destruct (m_built m1) as [u|] eqn:Eu; [|exfalso; injection Hb' as <-; discriminate].
  assert (Hset : m_set m1 = with_nstatev 2 st) by (injection Hb' as <-; reflexivity).
  assert (Hn : u_ndof1 u = 2%nat) by (injection Hb' as <-; cbn in Eu; injection Eu as <-; reflexivity).
  exists m1, u. split; [reflexivity|]. split; [exact Eu|]. split; [exact Hn|]. split; [|exact Hr].
  rewrite Hset. unfold usable. cbn. repeat split; try lia; try discriminate; auto.
Qed.
Print Assumptions C71_not_a_number_raises.

Local Open Scope R_scope.

(** In exact arithmetic every run returns, given the time its settings demand. *)
Theorem C71_run_returns : forall argsortF solve (st : settings R),
  (forall l, Permutation (argsortF l) (seq 0 (length l))) -> (forall M b, length M = length b -> length (solve M b) = length b) ->
  (1 <= s_cycl st)%Z ->
  (s_stepcontrol st = true -> 0 < s_minfac st <= 1 /\ 1 <= s_maxfac st /\ 1 < s_reduce st /\ 0 <= s_increase st /\ 0 < s_du st /\ 0 < s_dlpf st) ->
  exists N, forall argsortZ P m ns ms bs fs m1 u fuel,
    argsort_ok argsortZ -> described m ns ms bs fs -> session argsortF solve argsortZ P m m1 -> (forall b, In b ms -> complete b) ->
    m_built m1 = Some u -> (1 <= u_ndof1 u)%nat -> m_set m1 = st -> usable (u_ndof1 u) st ->
    (forall fh r, m_forces m1 = Some fh -> In r (e_rows fh) -> (3 * Z.to_nat (s_nsteps st) <= length r)%nat) ->
    (N <= fuel)%nat -> exists m2 out, run argsortF solve m1 fuel = Ok (m2, out).
Proof.
  intros argsortF solve st Hsort Hsolve Hy Hs.
  assert (T : exists N, forall m1 fuel, m_set m1 = st -> (N <= fuel)%nat -> run argsortF solve m1 fuel <> Timeout).
  { destruct (s_stepcontrol st) eqn:Es.
    - destruct (Hs eq_refl) as (A1 & A2 & A3 & A4 & A5 & A6). destruct (C30_run_control argsortF solve st Es Hy A1 A2 A3 A4 A5 A6) as [N HN].
      exists N. intros m1 fuel E Hf. apply (HN m1 fuel E Hf).
    - exists (Z.to_nat (s_cycl st)). intros m1 fuel E Hf. apply C30_run_plain; rewrite E; assumption. }
  destruct T as [N HN]. exists N. intros argsortZ P m ns ms bs fs m1 u fuel HA Hd HS Hc Eu Hn E Hu Hw Hf. subst st.
  destruct (C71_run R _ argsortZ argsortF solve P m ns ms bs fs m1 u fuel HA Hsort Hsolve Hd HS Hc Eu Hn Hu Hw) as [H|[H|(_ & _ & v & H)]]; [exact H| |].
  - exfalso. exact (HN m1 fuel eq_refl Hf H).
  - exfalso. unfold fisnan in H. cbn in H. unfold Reqb in H. destruct (Req_EM_T v v); [discriminate|contradiction].
Qed.
Print Assumptions C71_run_returns.

(** The sample truss, with predictor, free control and step control, in two steps, and
    run again afterwards. *)
Example C71_meets : let st := xr_settings (F:=R) 8 8 true false None 8 10 2 in
  exists m1 u N, build argsort_ins (xr_at st) = Ok m1 /\ m_built m1 = Some u /\ u_ndof1 u = 2%nat /\
    (forall b, In b (xr_ms (F:=R)) -> complete b) /\ usable 2 (m_set m1) /\
    forall fuel, (N <= fuel)%nat -> exists m2 out m3 out3, run (fun l => seq 0 (length l)) gauss m1 fuel = Ok (m2, out) /\
      run (fun l => seq 0 (length l)) gauss m2 fuel = Ok (m3, out3).
Proof.
  intros st. destruct (build argsort_ins (xr_at st)) as [m1|e|] eqn:Hb; [|exfalso; lazy in Hb; discriminate|exfalso; lazy in Hb; discriminate].
  pose proof Hb as Hb'. lazy in Hb'. 
  destruct (m_built m1) as [u|] eqn:Eu; [|exfalso; injection Hb' as <-; discriminate].
  assert (Hset : m_set m1 = with_nstatev 2 st) by (injection Hb' as <-; reflexivity).
  assert (Hn : u_ndof1 u = 2%nat) by (injection Hb' as <-; cbn in Eu; injection Eu as <-; reflexivity).
  assert (Hrows : forall fh r, m_forces m1 = Some fh -> In r (e_rows fh) -> (6 <= length r)%nat).
  { injection Hb' as <-. cbn. intros fh r Ef. injection Ef as <-. cbn. intros [<- | [<- | [<- | []]]]; cbn; lia. }
  clear Hb'.
  assert (Hc : forall b, In b (xr_ms (F:=R)) -> complete b).
  { intros b [<- | [<- | []]]; split; cbn; try discriminate; lia. }
  assert (Hu : usable 2 (m_set m1)).
  { rewrite Hset. unfold usable. cbn. repeat split; try lia; try discriminate; auto. intros _. unfold q. numR. unfold Reqb. destruct (Req_EM_T _ _) as [E|]; [exfalso; lra|reflexivity]. }
  destruct (C71_run_returns (fun l => seq 0 (length l)) gauss (m_set m1)) as [N HN].
  - intros l. apply Permutation_refl.
  - apply gauss_sign_free.
  - rewrite Hset. cbn. lia.
  - intros _. rewrite Hset. cbn. unfold q. cbn. numR. repeat split; lra.
  - exists m1, u, N. split; [reflexivity|]. split; [exact Eu|]. split; [exact Hn|]. split; [exact Hc|]. split; [exact Hu|]. intros fuel Hf.
    assert (HS : session (fun l => seq 0 (length l)) gauss argsort_ins (fun _ => True) (xr_at st) m1) by (apply s_build; exact Hb).
    destruct (HN argsort_ins (fun _ => True) (xr_at st) _ _ _ _ m1 u fuel argsort_ins_ok (xr_described st) HS Hc Eu ltac:(lia) eq_refl ltac:(rewrite Hn; exact Hu)
      ltac:(intros fh r; rewrite Hset; exact (Hrows fh r)) Hf) as (m2 & out & E2).
    assert (HS2 : session (fun l => seq 0 (length l)) gauss argsort_ins (fun _ => True) (xr_at st) m2) by (eapply s_run; [exact HS|exact Logic.I|exact E2]).
    pose proof (RunFacts.run_ok _ _ _ _ _ _ E2) as (u1 & _ & _ & _ & _ & _ & u2 & A1 & _ & _ & _ & _ & Em & _ & A8 & _).
    assert (u1 = u) by congruence. subst u1.
    assert (Hn2 : u_ndof1 u2 = 2%nat) by congruence.
    destruct (HN argsort_ins (fun _ => True) (xr_at st) _ _ _ _ m2 u2 fuel argsort_ins_ok (xr_described st) HS2 Hc ltac:(rewrite Em; reflexivity) ltac:(lia)
      ltac:(rewrite Em; reflexivity) ltac:(rewrite Hn2; exact Hu) ltac:(intros fh r; rewrite Em, Hset; exact (Hrows fh r)) Hf) as (m3 & out3 & E3).
    do 4 eexists. split; [exact E2|exact E3].
Qed.

Local Close Scope R_scope.

(** The conditions are needed.  A run that returns has a number of increments and a
    limit for each of its steps and settings that can be written to the log; and if some
    step asks for an increment at all, then every member has its area and its material
    parameters, a locked control component is given and exists, the Newton iteration is
    allowed an iteration (the predictor has its own), and there are loads for that step. *)
Theorem C71_needed : forall F (NF : Num F) argsortZ argsortF solve P (m : model F) ns ms bs fs m1 u fuel m2 out,
  argsort_ok argsortZ -> described m ns ms bs fs -> session argsortF solve argsortZ P m m1 ->
  m_built m1 = Some u -> (1 <= u_ndof1 u)%nat -> run argsortF solve m1 fuel = Ok (m2, out) ->
  let st := m_set m1 in
  each_step (Z.to_nat (s_nsteps st)) (s_incs st) (fun _ => True) /\
  each_step (Z.to_nat (s_nsteps st)) (s_xlimit st) (fun _ => True) /\
  ((s_log st <= 1)%Z \/ s_j0 st = None) /\
  forall k incs, (k < Z.to_nat (s_nsteps st))%nat -> in_step (s_incs st) k incs -> (1 <= incs)%Z ->
    (forall b, In b ms -> complete b) /\
    (s_jpre st = false \/ s_jfixed st = true -> (1 <= s_nfev st)%Z) /\
    (s_jfixed st = true -> exists j, s_j0 st = Some j /\ (Z.abs j <= Z.of_nat (u_ndof1 u) + 1)%Z) /\
    (forall fh r, m_forces m1 = Some fh -> In r (e_rows fh) -> (3 * (k + 1) <= length r)%nat).
Proof. intros F NF argsortZ argsortF solve P m ns ms bs fs m1 u fuel m2 out. apply run_needs. Qed.
Print Assumptions C71_needed.

(** So a missing area or material parameter is reported by an exception, not silently
    replaced: with usable settings that are without step control a run in which an
    increment is asked for returns if every member is complete, and raises otherwise
    (the control component is locked, so that numbers that are not numbers do not matter). *)
Theorem C71_members : forall F (NF : Num F) argsortZ argsortF solve P (m : model F) ns ms bs fs m1 u fuel k incs,
  argsort_ok argsortZ -> (forall l, Permutation (argsortF l) (seq 0 (length l))) ->
  (forall M b, length M = length b -> length (solve M b) = length b) ->
  described m ns ms bs fs -> session argsortF solve argsortZ P m m1 ->
  m_built m1 = Some u -> (1 <= u_ndof1 u)%nat -> usable (u_ndof1 u) (m_set m1) ->
  (forall fh r, m_forces m1 = Some fh -> In r (e_rows fh) -> (3 * Z.to_nat (s_nsteps (m_set m1)) <= length r)%nat) ->
  s_jfixed (m_set m1) = true -> s_stepcontrol (m_set m1) = false -> (1 <= s_cycl (m_set m1))%Z -> (Z.to_nat (s_cycl (m_set m1)) <= fuel)%nat ->
  (k < Z.to_nat (s_nsteps (m_set m1)))%nat -> in_step (s_incs (m_set m1)) k incs -> (1 <= incs)%Z ->
  ((forall b, In b ms -> complete b) <-> exists m2 out, run argsortF solve m1 fuel = Ok (m2, out)) /\
  (~ (forall b, In b ms -> complete b) <-> exists e, run argsortF solve m1 fuel = Err e).
Proof.
  intros F NF argsortZ argsortF solve P m ns ms bs fs m1 u fuel k incs HA Hsort Hsolve Hd HS Eu Hn Hu Hw Hj Hs Hy Hf Hk Hi Hp.
  assert (N : forall m2 out, run argsortF solve m1 fuel = Ok (m2, out) -> forall b, In b ms -> complete b).
  { intros m2 out E. destruct (C71_needed F NF argsortZ argsortF solve P m ns ms bs fs m1 u fuel m2 out HA Hd HS Eu Hn E) as (_ & _ & _ & G). apply (G k incs Hk Hi Hp). }
  assert (Y : (forall b, In b ms -> complete b) -> exists m2 out, run argsortF solve m1 fuel = Ok (m2, out)).
  { intros Hc. exact (C71_run_locked F NF argsortZ argsortF solve P m ns ms bs fs m1 u fuel HA Hsort Hsolve Hd HS Hc Eu Hn Hu Hw Hj Hs Hy Hf). }
  pose proof (C30_run_plain F NF argsortF solve m1 fuel Hs Hy Hf) as T.
  split; [split; [exact Y|intros (m2 & out & E); eapply N, E]|]. split.
  - intros Hc. destruct (run argsortF solve m1 fuel) as [[m2 out]|e|] eqn:E; [exfalso; exact (Hc (N m2 out eq_refl))|eauto|contradiction].
  - intros [e E] Hc. destruct (Y Hc) as (m2 & out & E2). congruence.
Qed.
Print Assumptions C71_members.

(** The sample truss whose plastic member was given no yield stress: it is built, but
    its run raises an IndexError. *)
Definition xn_elems {F} `{Num F} : elemH F :=
  ElemH [7; 9]%Z [(1, 2); (2, 5)]%Z [1; 1]%Z [1; 2]%Z (Tab false 2 [[q 1 1; f0]; [q 1 1; q 1 10]]) (Tab false 1 [[f1]; [f1]]).
Definition xn_ms {F} `{Num F} : list (member F) := [Mb 7 1 2 UmatEl [q 1 1; f0] [f1]; Mb 9 2 5 UmatPl [q 1 1; q 1 10] [f1]].
Example C71_members_meets : forall solve : list (list b64) -> list b64 -> list b64,
  (forall M b, length M = length b -> length (solve M b) = length b) ->
  let st := Settings (Same 10%Z) false f1 f1 f1 f1 f1 8 8 4 8 (q 1 200) (q 1 20) (Same (0%Z, None)) 0 (Some 3%Z) true true 0 2 in
  let m := Model xr_nodes (Some xn_elems) xr_bounds xr_forces st None in
  exists m1 u, build argsort_ins m = Ok m1 /\ m_built m1 = Some u /\ described m xr_ns xn_ms xr_bs xr_fs /\
    usable (u_ndof1 u) (m_set m1) /\ ~ (forall b, In b (xn_ms (F:=b64)) -> complete b) /\
    (exists e, run (fun l => seq 0 (length l)) solve m1 4 = Err e) /\
    run (fun l => seq 0 (length l)) (fun M b => b) m1 4 = Err IndexError.
Proof.
  intros solve Hsolve st m.
  assert (Hd : described m xr_ns xn_ms xr_bs xr_fs).
  { destruct (xr_described (F:=b64) st) as (D1 & D2 & D3 & _ & D5 & D6 & D7 & D8 & D9).
    split; [exact D1|]. split; [exact D2|]. split; [exact D3|]. split; [eexists; split; [reflexivity|repeat split]|]. split; [exact D5|]. split; [exact D6|].
    split; [exact D7|]. split; [exact D8|]. intros b [<- | [<- | []]]; cbn; repeat split; auto; discriminate. }
  assert (Hr : match build argsort_ins m with Ok m1 => run (fun l => seq 0 (length l)) (fun M b => b) m1 4 | _ => Timeout end = Err IndexError) by (vm_compute; reflexivity).
  destruct (build argsort_ins m) as [m1|e|] eqn:Hb; [|exfalso; vm_compute in Hb; discriminate|exfalso; vm_compute in Hb; discriminate].
  pose proof Hb as Hb'. vm_compute in Hb'. destruct (m_built m1) as [u|] eqn:Eu; [|exfalso; injection Hb' as <-; discriminate].
  assert (Hset : m_set m1 = with_nstatev 2 st) by (injection Hb' as <-; reflexivity).
  assert (Hn : u_ndof1 u = 2%nat) by (injection Hb' as <-; cbn in Eu; injection Eu as <-; reflexivity).
  assert (Hrows : forall fh r, m_forces m1 = Some fh -> In r (e_rows fh) -> (6 <= length r)%nat).
  { injection Hb' as <-. cbn. intros fh r Ef. injection Ef as <-. cbn. intros [<- | [<- | [<- | []]]]; cbn; lia. }
  clear Hb'.
  assert (Hc : ~ (forall b, In b (xn_ms (F:=b64)) -> complete b)).
  { intros H. destruct (H _ (or_intror (or_introl eq_refl))) as [_ A]. cbn in A. lia. }
  assert (Hu : usable (u_ndof1 u) (m_set m1)).
  { rewrite Hset, Hn. unfold usable. cbn. repeat split; try lia; try discriminate. intros _. exists 3%Z. split; [reflexivity|lia]. }
  exists m1, u. split; [reflexivity|]. split; [exact Eu|]. split; [exact Hd|]. split; [exact Hu|]. split; [exact Hc|]. split; [|exact Hr].
  destruct (C71_members b64 _ argsort_ins (fun l => seq 0 (length l)) solve (fun _ => True) m _ _ _ _ m1 u 4 0 10%Z argsort_ins_ok (fun l => Permutation_refl _) Hsolve Hd) as (_ & H);
    try (rewrite Hset; cbn; lia); try exact Eu; try exact Hu; try (rewrite Hset; reflexivity); try lia.
  - apply s_build. exact Hb.
  - rewrite Hset. exact Hrows.
  - apply H, Hc.
Qed.
