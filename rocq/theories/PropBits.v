(** * C18 in floating point: the stiffness matrix is symmetric bit for bit *)
From Coq Require Import List ZArith Bool Arith Lia SpecFloat.
Import ListNotations.
From Verif Require Import Num Vec Handlers Material Analysis Truss Equil Run SpecMech SpecState SpecBuild SpecRun FrameFacts ReachFacts EditFacts
  BitFacts Double NumFix ExRun.

(** In every arithmetic whose multiplication is commutative, rounded or not. *)
Theorem C18_commutative : forall F (NF : Num F), (forall a b : F, fmul a b = fmul b a) ->
  forall (c : ctx F) ms u an an' Kred,
  truss_ok c ms -> sizes_ok c ms an -> stiffness c u an = Ok (an', Kred) ->
  forall i j, i < length (a_DOF1 an) -> j < length (a_DOF1 an) ->
    nth j (nth i Kred []) f0 = nth i (nth j Kred []) f0.
Proof. intros F NF HC c ms u an an' Kred. now apply stiffness_bits. Qed.
Print Assumptions C18_commutative.

(** In particular for doubles: the entries agree in sign, mantissa and exponent, also
    where they are zeros, infinities or NaN. *)
Theorem C18_double : forall (c : ctx double) ms u an an' Kred,
  truss_ok c ms -> sizes_ok c ms an -> stiffness c u an = Ok (an', Kred) ->
  forall i j, i < length (a_DOF1 an) -> j < length (a_DOF1 an) ->
    nth j (nth i Kred []) f0 = nth i (nth j Kred []) f0.
Proof.
  apply C18_commutative. intros a b. cbn [fmul NumDouble].
  destruct a as [s|s| |s m e], b as [t|t| |t n f]; cbn [SFmul]; try (rewrite xorb_comm; reflexivity); try reflexivity.
  now rewrite xorb_comm, Pos.mul_comm, Z.add_comm.
Qed.
Print Assumptions C18_double.

(** Two active DOFs of the sample truss, displaced: the entry off the diagonal is a
    rounded number. *)
Example C18_double_meets : let st := xr_settings (F:=double) 8 8 false false None 8 3 2 in
  exists (c : ctx double) an an' Kred s m e, truss_ok c xr_ms /\ sizes_ok c xr_ms an /\
  stiffness c [fdiv f1 (fofZ 3); fdiv f1 (fofZ 7)] an = Ok (an', Kred) /\
  length (a_DOF1 an) = 2 /\ nth 1 (nth 0 Kred []) f0 = S754_finite s m e.
Proof.
  intros st.
  assert (T : match build argsort_ins (xr_at st) with
              | Ok m1 => match m_built m1, m_nodes m1, m_elems m1 with
                         | Some u, Some nh, Some eh =>
                           match stiffness (ctx_of m1 u nh eh) [fdiv f1 (fofZ 3); fdiv f1 (fofZ 7)] (u_an u) with
                           | Ok (_, K) => match nth 1 (nth 0 K []) f0 with S754_finite _ _ _ => true | _ => false end && (length (a_DOF1 (u_an u)) =? 2)
                           | _ => false end
                         | _, _, _ => false end
              | _ => false end = true) by (vm_cast_no_check (eq_refl true)).
  destruct (build _ _) as [m1| |] eqn:Hb; try discriminate.
  destruct (build_reached _ _ _ _ _ _ _ argsort_ins_ok (xr_described st) Hb)
    as (nh & eh & fh & u & ns' & En & Ee & _ & Eu & _ & _ & _ & _ & Htr & _ & _ & _ & _ & _ & _ & _ & Hre).
  rewrite En, Ee, Eu in T. destruct (stiffness _ _ _) as [[an' K]| |] eqn:Hs; try discriminate.
  apply andb_true_iff in T. destruct T as [T1 T2]. apply Nat.eqb_eq in T2.
  destruct (nth 1 (nth 0 K []) f0) as [s|s| |s m e] eqn:Ent; try discriminate.
  exists (ctx_of m1 u nh eh), (u_an u), an', K, s, m, e. split; [exact Htr|]. split; [apply Hre|]. auto.
Qed.
