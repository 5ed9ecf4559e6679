(** * Newton's method on trusses: assembling the parts *)
From Coq Require Import List ZArith Bool Arith Lia Reals Lra.
From Coquelicot Require Import Coquelicot.
Import ListNotations.
From Verif Require Import Num NumR Vec Handlers Material Analysis Truss Equil Solver ListFacts SpecMaterial SpecMech SpecMechR EquilFacts
  TangentFacts SpecState FrameFacts SpecNewton BallFacts OneFacts JacFacts NearFacts.
Local Open Scope R_scope.

Section Truss.
  Variables (c : ctx R) (ms : list (member R)) (an : analysis R) (j : Z) (solve : list (list R) -> list R -> list R) (xs : list R).
  Notation n := (S (c_ndof1 c)).
  Hypotheses (Hok : truss_ok c ms) (Hsz : sizes_ok c ms an) (Hld : loads_ok c an) (Hpr : props_ok c ms an)
    (Hf0 : gather (concat (a_forces an)) (a_DOF1 an) = Ok (a_f0red an)) (Hxs : length xs = n)
    (Hj : (1 <= Z.abs j <= Z.of_nat n)%Z) (Hsol : solves n solve).
  Variables (an2 : analysis R) (Km : list (list R)).
  Hypotheses (HK : dfdx (stiffness c) j xs an = Ok (an2, Km)) (Hreg : regular c ms an (a_U an2)) (Hns : nonsingular n Km).

  Definition target := (list R * R)%type.
  Definition good_target (w : target) : Prop := length (fst w) = n.
  Definition resid (w : target) (V : list R) : list R := F0 c an (fst w) j (snd w) V.

  Lemma updated : a_U an2 = upd an xs.
  Proof.
    destruct (like_ok c ms an xs j Hsz Hld Hpr Hxs Hf0 Hj an (like_self c ms an Hsz)) as (_ & _ & _ & S4).
    destruct (PropMech.dfdx_total c ms xs an j Hok Hsz Hld Hpr Hxs S4 ltac:(lia)) as (a2 & Km0 & E0 & SU0).
    rewrite HK in E0. injection E0 as <- <-. unfold upd. rewrite SU0. reflexivity.
  Qed.
  Lemma J_is : J0 c an j xs = Km.
  Proof. unfold J0. rewrite HK. reflexivity. Qed.

  Lemma derivatives : exists d, 0 < d /\ forall w z, good_target w -> within n d z xs -> forall i k, (i < n)%nat -> (k < n)%nat ->
    is_derive (fun t => nth i (resid w (set_nth k t z)) 0) (nth k z 0) (ent (J0 c an j z) i k).
  Proof.
    rewrite updated in Hreg. destruct (regular_near c ms an xs Hok Hsz Hxs Hreg) as (d & Hd & H).
    exists d. split; [exact Hd|]. intros w z Hw Hz. destruct Hz as [Hz1 Hz2].
    apply (J0_is_derivative c ms an (fst w) j (snd w) Hok Hsz Hld Hpr Hw Hf0 Hj z Hz1). apply H. split; assumption.
  Qed.

  Lemma entries : forall e, 0 < e -> exists d, 0 < d /\ forall z, within n d z xs -> forall i k, (i < n)%nat -> (k < n)%nat ->
    Rabs (ent (J0 c an j z) i k - ent (J0 c an j xs) i k) <= e.
  Proof.
    rewrite updated in Hreg. intros e He.
    assert (G : near n xs (fun z => forall i, (i < n)%nat -> forall k, (k < n)%nat ->
      Rabs (J_entry c ms an j (upd an z) i k - J_entry c ms an j (upd an xs) i k) <= e)).
    { apply (near_all n xs (fun i z => forall k, (k < n)%nat -> Rabs (J_entry c ms an j (upd an z) i k - J_entry c ms an j (upd an xs) i k) <= e)).
      intros i Hi. apply (near_all n xs (fun k z => Rabs (J_entry c ms an j (upd an z) i k - J_entry c ms an j (upd an xs) i k) <= e)).
      intros k Hk. apply (cont_le n xs (fun z => J_entry c ms an j (upd an z) i k) e); [|exact He].
      apply J_entry_continuous; assumption. }
    destruct G as (d & Hd & H). exists d. split; [exact Hd|]. intros z Hz i k Hi Hk.
    pose proof (proj1 Hz) as Hlz.
    rewrite (proj2 (J0_entry c ms an xs j Hok Hsz Hld Hpr Hxs Hf0 Hj z Hlz) i k Hi Hk), (proj2 (J0_entry c ms an xs j Hok Hsz Hld Hpr Hxs Hf0 Hj xs Hxs) i k Hi Hk).
    apply H; assumption.
  Qed.

  Let fn (w : target) := f_ext (equilibrium c) (fst w) j (snd w) false.
  Let dfn := dfdx (stiffness c) j.

  Lemma converges_from q : 0 < q < 1 -> exists r C, 0 < r /\ 0 < C /\ forall ftol xtol, 0 < ftol -> 0 < xtol ->
    exists N, forall V0 Vmax x b nfev a, alike c ms an a -> length V0 = n -> within n r x xs -> bounded n b (F0 c an V0 j Vmax x) -> 0 <= b -> C * b <= r -> (Z.of_nat N <= nfev)%Z ->
      exists s' o, newton solve (f_ext (equilibrium c) V0 j Vmax false) dfn x nfev ftol xtol a = Ok (s', o) /\ no_success o = true /\ alike c ms an s' /\
        (1 <= no_n o <= Z.of_nat N)%Z /\ within n (C * b) (no_x o) x /\ bounded n (q ^ Z.to_nat (no_n o) * b) (F0 c an V0 j Vmax (no_x o)).
  Proof.
    intros Hq.
    destruct (newton_converges n solve target good_target resid (J0 c an j) xs Hsol Hxs
      (fun w x Hw => F0_length c ms an (fst w) j (snd w) Hok Hsz Hld Hpr Hw Hj x)
      (fun x Hx => proj1 (J0_entry c ms an xs j Hok Hsz Hld Hpr Hxs Hf0 Hj x Hx)) ltac:(rewrite J_is; exact Hns) derivatives entries
      fn dfn (alike c ms an)
      (fun w x s Hw Hx Hs => like_fn c ms an (fst w) j (snd w) Hok Hsz Hld Hpr Hw Hf0 Hj x s Hx Hs)
      (fun x s Hx Hs => like_dfn c ms an xs j Hok Hsz Hld Hpr Hxs Hf0 Hj x s Hx Hs) q Hq) as (r & C & Hr & HC & H).
    exists r, C. split; [exact Hr|]. split; [exact HC|]. intros ftol xtol Hft Hxt. destruct (H ftol xtol Hft Hxt) as [N HN].
    exists N. intros V0 Vmax x b nfev a Ha HV0 Hx Hb Hb0 HCb Hnf.
    exact (HN (V0, Vmax) x b nfev a HV0 Ha Hx Hb Hb0 HCb Hnf).
  Qed.
  Lemma converges q : 0 < q < 1 -> exists r C, 0 < r /\ 0 < C /\ forall ftol xtol, 0 < ftol -> 0 < xtol ->
    exists N, forall V0 Vmax x b nfev, length V0 = n -> within n r x xs -> bounded n b (F0 c an V0 j Vmax x) -> 0 <= b -> C * b <= r -> (Z.of_nat N <= nfev)%Z ->
      exists s' o, newton solve (f_ext (equilibrium c) V0 j Vmax false) dfn x nfev ftol xtol an = Ok (s', o) /\ no_success o = true /\ alike c ms an s' /\
        (1 <= no_n o <= Z.of_nat N)%Z /\ within n (C * b) (no_x o) x /\ bounded n (q ^ Z.to_nat (no_n o) * b) (F0 c an V0 j Vmax (no_x o)).
  Proof.
    intros Hq. destruct (converges_from q Hq) as (r & C & Hr & HC & H). exists r, C. split; [exact Hr|]. split; [exact HC|].
    intros ftol xtol Hft Hxt. destruct (H ftol xtol Hft Hxt) as [N HN]. exists N. intros V0 Vmax x b nfev HV0 Hx Hb Hb0 HCb Hnf.
    exact (HN V0 Vmax x b nfev an (like_self c ms an Hsz) HV0 Hx Hb Hb0 HCb Hnf).
  Qed.

  Lemma superlinear V0 Vmax q : length V0 = n -> F0 c an V0 j Vmax xs = repeat 0 n -> 0 < q < 1 -> exists r, 0 < r /\ forall ftol xtol, 0 < ftol -> 0 < xtol ->
    exists N, forall x d nfev, within n d x xs -> 0 <= d <= r -> (Z.of_nat N <= nfev)%Z ->
      exists s' o, newton solve (f_ext (equilibrium c) V0 j Vmax false) dfn x nfev ftol xtol an = Ok (s', o) /\ no_success o = true /\ alike c ms an s' /\
        (1 <= no_n o <= Z.of_nat N)%Z /\ within n (q ^ Z.to_nat (no_n o) * d) (no_x o) xs.
  Proof.
    intros HV0 H0 Hq.
    destruct (newton_superlinear n solve target good_target resid (J0 c an j) xs Hsol Hxs
      (fun w x Hw => F0_length c ms an (fst w) j (snd w) Hok Hsz Hld Hpr Hw Hj x)
      (fun x Hx => proj1 (J0_entry c ms an xs j Hok Hsz Hld Hpr Hxs Hf0 Hj x Hx)) ltac:(rewrite J_is; exact Hns) derivatives entries
      fn dfn (alike c ms an)
      (fun w x s Hw Hx Hs => like_fn c ms an (fst w) j (snd w) Hok Hsz Hld Hpr Hw Hf0 Hj x s Hx Hs)
      (fun x s Hx Hs => like_dfn c ms an xs j Hok Hsz Hld Hpr Hxs Hf0 Hj x s Hx Hs) (V0, Vmax) q HV0 H0 Hq) as (r & Hr & H).
    exists r. split; [exact Hr|]. intros ftol xtol Hft Hxt. destruct (H ftol xtol Hft Hxt) as [N HN].
    exists N. intros x d nfev Hx Hd Hnf. exact (HN x d nfev an (like_self c ms an Hsz) Hx Hd Hnf).
  Qed.
End Truss.
