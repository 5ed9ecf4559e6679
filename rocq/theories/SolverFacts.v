(** * Facts about Newton runs and the increment loop *)
From Coq Require Import List ZArith Bool Arith Lia.
Import ListNotations.
From Verif Require Import Num Vec Analysis Solver ListFacts SpecSolver.

Section Newton.
  Context {F : Type} `{NF : Num F}.
  Variable solve : list (list F) -> list F -> list F.
  Context {S : Type}.
  Variable fn : list F -> S -> res (S * list F).
  Variable dfn : list F -> S -> res (S * list (list F)).
  Notation it := (iter F S).

  (** What [newton] reports about a run ending with [t]. *)
  Definition reports (ftol xtol : F) (n : Z) (t : it) : newton_out F :=
    NOut (it_x t) (converged ftol xtol t) n (fnorm (it_f t)) (fnorm (it_dx t)).

  Lemma loop_fwd ftol xtol : forall k n x prev s s' o,
    newton_loop solve fn dfn ftol xtol k n x prev s = Ok (s', o) ->
    (k = 0%nat /\ s' = s /\ exists p q, prev = Some (p, q) /\ o = NOut x false n p q) \/
    exists ts t, trace solve fn dfn x s (ts ++ [t]) /\
      (forall u, In u ts -> converged ftol xtol u = false) /\
      s' = it_s t /\ o = reports ftol xtol (n + Z.of_nat (length (ts ++ [t]))) t /\
      (length (ts ++ [t]) <= k)%nat /\
      (converged ftol xtol t = false -> length (ts ++ [t]) = k).
  Proof.
    induction k as [|k IH]; intros n x prev s s' o H; cbn [newton_loop] in H.
    - left. destruct prev as [[p q]|]; [|discriminate]. injection H as <- <-. eauto 6.
    - right.
      destruct (dfn x s) as [[s1 Km]|?|] eqn:E1; cbn [bind] in H; try discriminate.
      destruct (fn x s1) as [[s2 fv]|?|] eqn:E2; cbn [bind] in H; try discriminate.
      destruct (bcast2 fadd x _) as [x'|?|] eqn:E3; cbn [bind] in H; try discriminate.
      destruct (fn x' s2) as [[s3 fv']|?|] eqn:E4; cbn [bind] in H; try discriminate.
      pose (t := It x' fv' (solve Km (map fopp fv)) s3).
      assert (Hit : iterate solve fn dfn x s t).
      { exists s1, Km, s2, fv. repeat split; assumption. }
      destruct (fltb (fnorm fv') ftol && fltb (fnorm (solve Km (map fopp fv))) xtol) eqn:Ec.
      + injection H as <- <-. exists [], t. cbn [app length].
        repeat split; [constructor; [exact Hit|constructor]|intros u []| |lia|].
        * unfold reports. cbn. rewrite <- Ec at 1. reflexivity.
        * intros C. change (fltb (fnorm fv') ftol && fltb (fnorm (solve Km (map fopp fv))) xtol = false) in C. congruence.
      + apply IH in H. destruct H as [(-> & -> & p & q & Hpq & ->)|(ts & t' & Ht & Hn & -> & -> & Hl & Hk)].
        * injection Hpq as <- <-. exists [], t. cbn [app length].
          repeat split; [constructor; [exact Hit|constructor]|intros u []| |lia].
          unfold reports. cbn. rewrite <- Ec at 1. reflexivity.
        * exists (t :: ts), t'. cbn [app length].
          repeat split; [constructor; [exact Hit|exact Ht]| | |lia|].
          -- intros u [<-|Hu]; [exact Ec|auto].
          -- unfold reports. f_equal. lia.
          -- intros C. apply Hk in C. lia.
  Qed.

  Lemma loop_bwd ftol xtol : forall ts k n x prev s t,
    trace solve fn dfn x s (ts ++ [t]) ->
    (forall u, In u ts -> converged ftol xtol u = false) ->
    (length (ts ++ [t]) <= k)%nat ->
    (converged ftol xtol t = false -> length (ts ++ [t]) = k) ->
    newton_loop solve fn dfn ftol xtol k n x prev s
      = Ok (it_s t, reports ftol xtol (n + Z.of_nat (length (ts ++ [t]))) t).
  Proof.
    induction ts as [|u ts IH]; intros k n x prev s t Ht Hn Hl Hk; cbn [app] in Ht.
    - inversion Ht as [|? ? ? ? Hi _]; subst. cbn [app length] in *.
      destruct k as [|k]; [lia|]. destruct Hi as (s1 & Km & s2 & fv & E1 & E2 & E3 & E4 & E5).
      cbn [newton_loop]. rewrite E1; cbn [bind]. rewrite E2; cbn [bind]. rewrite <- E3, E4; cbn [bind].
      rewrite E5; cbn [bind]. change (fltb (fnorm (it_f t)) ftol && fltb (fnorm (it_dx t)) xtol) with (converged ftol xtol t).
      destruct (converged ftol xtol t) eqn:Ec.
      + unfold reports. rewrite Ec. reflexivity.
      + assert (k = 0%nat) as -> by (specialize (Hk eq_refl); lia). cbn [newton_loop].
        unfold reports. rewrite Ec. reflexivity.
    - inversion Ht as [|? ? ? ? Hi Hr]; subst. cbn [app length] in Hl, Hk.
      destruct k as [|k]; [lia|]. destruct Hi as (s1 & Km & s2 & fv & E1 & E2 & E3 & E4 & E5).
      cbn [newton_loop]. rewrite E1; cbn [bind]. rewrite E2; cbn [bind]. rewrite <- E3, E4; cbn [bind].
      rewrite E5; cbn [bind]. change (fltb (fnorm (it_f u)) ftol && fltb (fnorm (it_dx u)) xtol) with (converged ftol xtol u). rewrite (Hn u (or_introl eq_refl)).
      rewrite (IH k _ _ _ _ t Hr); [|intros; apply Hn; right; assumption|lia|intros C; apply Hk in C; lia].
      do 2 f_equal. f_equal. cbn [app length]. lia.
  Qed.

  Lemma newton_iff x nfev ftol xtol s s' o :
    newton solve fn dfn x nfev ftol xtol s = Ok (s', o) <->
    exists ts t, trace solve fn dfn x s (ts ++ [t]) /\
      (forall u, In u ts -> converged ftol xtol u = false) /\
      s' = it_s t /\ no_x o = it_x t /\ no_success o = converged ftol xtol t /\
      no_n o = Z.of_nat (length (ts ++ [t])) /\
      no_fnorm o = fnorm (it_f t) /\ no_xnorm o = fnorm (it_dx t) /\
      (no_n o <= nfev)%Z /\ (no_success o = false -> no_n o = nfev).
  Proof.
    unfold newton. split.
    - intros H. apply loop_fwd in H.
      destruct H as [(? & ? & p & q & Hpq & ?)|(ts & t & Ht & Hn & -> & -> & Hl & Hk)]; [discriminate|].
      exists ts, t. cbn [reports no_x no_success no_n no_fnorm no_xnorm].
      assert (1 <= length (ts ++ [t]))%nat by (rewrite app_length; cbn; lia).
      repeat split; try assumption; try lia. intros C. apply Hk in C. lia.
    - intros (ts & t & Ht & Hn & -> & Hx & Hs & Hno & Hf & Hd & Hl & Hk).
      assert (1 <= length (ts ++ [t]))%nat by (rewrite app_length; cbn; lia).
      rewrite (loop_bwd ftol xtol ts (Z.to_nat nfev) 0 x None s t Ht Hn).
      + destruct o; cbn in *. subst. reflexivity.
      + lia.
      + intros C. rewrite C in Hs. specialize (Hk Hs). lia.
  Qed.

  Lemma newton_none x nfev ftol xtol s :
    (nfev <= 0)%Z -> newton solve fn dfn x nfev ftol xtol s = Err UnboundLocalError.
  Proof. intros H. unfold newton. replace (Z.to_nat nfev) with 0%nat by lia. reflexivity. Qed.

  (** Invariants of a Newton run. *)
  Lemma trace_inv (P : S -> Prop) (Q : list F -> S -> Prop) :
    (forall x s s' v, P s -> fn x s = Ok (s', v) -> P s' /\ Q x s') ->
    (forall x s s' K, P s -> dfn x s = Ok (s', K) -> P s') ->
    forall ts x s t, P s -> trace solve fn dfn x s (ts ++ [t]) -> P (it_s t) /\ Q (it_x t) (it_s t).
  Proof.
    intros Hf Hd. induction ts as [|u ts IH]; intros x s t Hs Ht; cbn [app] in Ht;
      inversion Ht as [|? ? ? ? Hi Hr]; subst;
      destruct Hi as (s1 & Km & s2 & fv & E1 & E2 & E3 & E4 & E5);
      apply Hd in E1; try assumption; apply Hf in E2; try assumption; destruct E2 as [E2 _];
      apply Hf in E5; try assumption.
    eapply IH; [|exact Hr]. tauto.
  Qed.

  Lemma bcast2_length_l (op : F -> F -> F) a b c :
    bcast2 op a b = Ok c -> (2 <= length a)%nat -> length c = length a.
  Proof.
    unfold bcast2. intros H Ha.
    destruct (Nat.eqb_spec (length a) (length b)) as [E|E].
    - injection H as <-. clear Ha. revert b E. induction a as [|x a IH]; intros [|y b] E; cbn in *; try lia.
      rewrite IH; lia.
    - destruct a as [|x [|y a]]; cbn in Ha; try lia.
      destruct b as [|z [|w b]]; try discriminate H.
      injection H as <-. cbn. now rewrite map_length.
  Qed.

  Lemma trace_length : forall ts x s t, (2 <= length x)%nat ->
    trace solve fn dfn x s (ts ++ [t]) -> length (it_x t) = length x.
  Proof.
    induction ts as [|u ts IH]; intros x s t Hx Ht; cbn [app] in Ht;
      inversion Ht as [|? ? ? ? Hi Hr]; subst;
      destruct Hi as (s1 & Km & s2 & fv & E1 & E2 & E3 & E4 & E5);
      apply bcast2_length_l in E4; try assumption.
    rewrite <- E4. eapply IH; [lia|exact Hr].
  Qed.
End Newton.

(** ** One pass of the recycle loop *)
Section Path.
  Context {F : Type} `{NF : Num F}.
  Variable solve : list (list F) -> list F -> list F.
  Variable argsortF : list F -> list nat.
  Notation AN := (analysis F).
  Variables (g : gfun F) (dg : kfun F) (cfg : pfcfg F).
  Notation corr := (corrector solve g dg cfg).
  Notation conv t := (converged (cf_ftol cfg) (cf_xtol cfg) t).

  (** Everything a pass computes: the Newton run [ts ++ [t]], the next control
      component [j], the validity flag and the result of the step control. *)
  Definition pass (x0 dxmax0 : list F) (pre : option (list F * F)) (s : rcst F)
      (xmax : F) (ts : list (iter F AN)) (t : iter F AN) (j : Z) (valid : bool)
      (dxmax' : list F) (z' b' : Z) (changed : bool) : Prop :=
    exists xs Dx q i1 v1,
      corr x0 (rc_j s) (rc_dxmax s) xmax xs (cf_nfev cfg - rc_npre s)%Z (rc_an s) ts t /\
      (conv t = false -> Z.of_nat (length (ts ++ [t])) = (cf_nfev cfg - rc_npre s)%Z) /\
      (match pre with
       | Some (Dx_pre, v) =>
           if (rc_z s =? 0)%Z then bcast2 fadd x0 (map (fun d => fdiv d (fabs v)) Dx_pre) = Ok xs
           else xs = x0
       | None => xs = x0 end) /\
      bcast2 fsub (it_x t) x0 = Ok Dx /\ biggest argsortF Dx (rc_dxmax s) = Ok (i1, v1) /\
      (2 <= length (it_x t))%nat /\
      (if cf_jfixed cfg then j = rc_j s else signed_index i1 v1 = Ok j) /\
      bcast2 fdiv Dx (rc_dxmax s) = Ok q /\
      (if cf_jfixed cfg
       then exists qj, py_get q (Z.abs j - 1) = Ok qj /\ valid = fleb (fabs qj) (cf_dxtol cfg)
       else valid = forallb (fun v => fleb (fabs v) (cf_dxtol cfg)) q) /\
      (if cf_stepcontrol cfg
       then dxmax_control cfg (rc_dxmax s) dxmax0 j (rc_j s) (rc_z s) (conv t) (rc_b s)
              (Z.of_nat (length (ts ++ [t]))) (cf_nfev cfg - rc_npre s)%Z = Ok (dxmax', z', b', changed)
       else dxmax' = rc_dxmax s /\ z' = rc_z s /\ b' = rc_b s /\ changed = false).

  Lemma recycle_pass x0 dxmax0 pre fuel s r x stop :
    recycle solve argsortF g dg cfg x0 dxmax0 pre (S fuel) s = Ok (r, x, stop) ->
    exists xmax ts t j valid dxmax' z' b' changed,
      pass x0 dxmax0 pre s xmax ts t j valid dxmax' z' b' changed /\
      let an2 := set_dVmax (rc_dxmax s) (it_s t) in
      ((valid && conv t = true /\ stop = false /\ x = it_x t /\
        exists an3 v, f_ext g x0 (rc_j s) xmax true x an2 = Ok (an3, v) /\
          r = Rc an3 z' j dxmax' (b' + 1)%Z (rc_npre s) (rc_out s)) \/
       (valid && conv t = false /\ (z' + 1)%Z = cf_cycl cfg /\ stop = true /\ x = it_x t /\
          r = Rc an2 z' j dxmax' b' (rc_npre s) (rc_out s ++ [MError1])) \/
       (valid && conv t = false /\ (z' + 1)%Z <> cf_cycl cfg /\
          rc_j s = j /\ conv t = false /\ changed = false /\ stop = true /\ x = it_x t /\
          r = Rc an2 z' j dxmax' b' (rc_npre s) (rc_out s ++ [MError2])) \/
       (valid && conv t = false /\ (z' + 1)%Z <> cf_cycl cfg /\
          ~ (rc_j s = j /\ conv t = false /\ changed = false) /\
          recycle solve argsortF g dg cfg x0 dxmax0 pre fuel
            (Rc an2 (z' + 1)%Z (if conv t then j else rc_j s) dxmax' b' 0%Z
                (rc_out s ++ [MRecycle])) = Ok (r, x, stop))).
  Proof.
    intros H. cbn [recycle] in H.
    apply bind_ok in H. destruct H as (xj & Hxj & H).
    apply bind_ok in H. destruct H as (dj & Hdj & H).
    apply bind_ok in H. destruct H as (xs & Hxs & H).
    cbv zeta in H.
    apply bind_ok in H. destruct H as ([an1 o] & Hnw & H).
    apply newton_iff in Hnw.
    destruct Hnw as (ts & t & Ht & Hnc & -> & Hox & Hos & Hon & _ & _ & Hle & Hex).
    rewrite Hox, Hos, Hon in H. rewrite Hon in Hle, Hex. rewrite Hos in Hex.
    apply bind_ok in H. destruct H as (Dx & HDx & H).
    apply bind_ok in H. destruct H as ([i1 v1] & Hbig & H).
    destruct (Nat.ltb_spec (length (it_x t)) 2) as [|Hlen]; [discriminate|].
    apply bind_ok in H. destruct H as (j & Hj & H).
    apply bind_ok in H. destruct H as (q & Hq & H).
    apply bind_ok in H. destruct H as (valid & Hv & H).
    apply bind_ok in H. destruct H as ([[[dxmax' z'] b'] changed] & Hdc & H).
    set (xmax := fadd xj (fmul dj (fofZ (Z.sgn (rc_j s))))) in *.
    exists xmax, ts, t, j, valid, dxmax', z', b', changed.
    split.
    { exists xs, Dx, q, i1, v1. repeat match goal with |- _ /\ _ => split end; try assumption.
      - exists xj, dj. repeat split; try assumption.
      - destruct pre as [[Dp v]|]; [|injection Hxs; auto].
        destruct (Z.eqb (rc_z s) 0); [assumption|injection Hxs; auto].
      - destruct (cf_jfixed cfg); [injection Hj; auto|assumption].
      - destruct (cf_jfixed cfg).
        + apply bind_ok in Hv. destruct Hv as (qj & Hqj & Hv). injection Hv as <-. eauto.
        + injection Hv; auto.
      - destruct (cf_stepcontrol cfg); [assumption|]. injection Hdc as <- <- <- <-. auto. }
    cbv zeta. clear - H.
    destruct (valid && conv t) eqn:Evc.
    { left. apply bind_ok in H. destruct H as ([an3 v] & Hf & H). injection H as <- <- <-.
      repeat split; try reflexivity. exists an3, v. auto. }
    right.
    destruct (Z.eqb_spec (z' + 1) (cf_cycl cfg)) as [Ez|Ez].
    { left. injection H as <- <- <-. auto. }
    right.
    destruct (Z.eqb_spec (rc_j s) j) as [Ej|Ej]; destruct (conv t) eqn:Ec; destruct changed;
      cbn [andb negb] in H;
      try (right; repeat split; try assumption; try reflexivity; intuition congruence).
    left. injection H as <- <- <-. repeat split; auto.
  Qed.

  Lemma pass_within x0 dxmax0 pre s xmax ts t j valid dxmax' z' b' changed :
    pass x0 dxmax0 pre s xmax ts t j valid dxmax' z' b' changed ->
    (valid = true <-> within cfg x0 (it_x t) (rc_dxmax s) (rc_j s)).
  Proof.
    intros (xs & Dx & q & i1 & v1 & _ & _ & _ & HDx & _ & _ & Hj & Hq & Hv & _).
    unfold within. destruct (cf_jfixed cfg).
    - subst j. destruct Hv as (qj & Hqj & ->). split.
      + intros C. exists Dx, q. eauto 6.
      + intros (Dx' & q' & E1 & E2 & qj' & E3 & E4). congruence.
    - subst valid. split.
      + intros C. exists Dx, q. repeat split; try assumption. rewrite forallb_forall in C. exact C.
      + intros (Dx' & q' & E1 & E2 & E3). rewrite forallb_forall.
        assert (q' = q) by congruence. now subst.
  Qed.
End Path.
