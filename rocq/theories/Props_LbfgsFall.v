(** C110: objectives without a lower bound. *)
From Coq Require Import String ZArith List Bool Arith Reals Lra Lia.
From Verif Require Import Prelude Num Spec_Rescale Proofs_Rescale Model_Lbfgs Proofs_Poisson Spec_Lbfgs Spec_LbfgsBack Spec_LbfgsQuad Spec_LbfgsFall
  Proofs_LbfgsVec Proofs_LbfgsReal Proofs_LbfgsFall.
Import ListNotations.
Local Open Scope R_scope.

(** A concave objective is evaluated at x0 and then at the steps t0, 5 t0, 21 t0, ... (where the
    first step has length 1), until max_step is reached or max_linesearch trials are made.  In
    the first case the call raises LBFGSError, in the second it returns x0 with a warning. *)
Theorem C110_unbounded : forall (St : Type) n z (O : options Rnum) (f : objective Rnum St) F G fuel lsfuel st x0 st' seen out,
  computes n z f F G -> length x0 = n -> vanishes z x0 -> searches O MoreThuente -> documented O MoreThuente n -> (0 <= o_m O)%Z ->
  o_epsilon O * Rmax 1 (norm n x0) < norm n (G x0) -> below_tangents n F G ->
  o_ftol O < 1 -> o_gtol O < 1 -> o_min_step O < 1 / norm n (G x0) ->
  fmin_lbfgs O (see f) None fuel lsfuel (st, []) x0 = Some ((st', seen), out) ->
  let t0 := 1 / norm n (G x0) in
  exists K ys, (0 < K)%nat /\ (Z.of_nat K <= o_max_linesearch O)%Z /\ seen = x0 :: ys /\ leaps n x0 (G x0) t0 (o_max_step O) K ys /\
    (forall j, (0 < j < K)%nat -> grown t0 j < o_max_step O) /\
    (o_max_step O <= grown t0 K /\ out = Raises LBFGSError \/
     grown t0 K < o_max_step O /\ Z.of_nat K = o_max_linesearch O /\ out = Returned x0 (Some LBFGSERR_MAXIMUMLINESEARCH)).
Proof.
  intros St n z O f F G fuel lsfuel st x0 st' seen out H1 H2 H3 H4 H5 H6 H7 H8 H9 H10 H11 H12.
  exact (falls n z O f F G fuel lsfuel st x0 H1 H2 H3 H4 H5 H6 H7 H8 H9 H10 H11 st' seen out H12).
Qed.
Print Assumptions C110_unbounded.

(** With the default options (max_step 1e20, 20 trials) it is always the second case: after 21
    evaluations the starting point is returned with a warning. *)
Theorem C110_default : forall (St : Type) n z (f : objective Rnum St) F G fuel lsfuel st x0 st' seen out,
  let O := default_options (N := Rnum) 0 "default" in
  computes n z f F G -> length x0 = n -> vanishes z x0 -> (0 < n)%nat ->
  o_epsilon O * Rmax 1 (norm n x0) < norm n (G x0) < 10 ^ 20 -> below_tangents n F G ->
  fmin_lbfgs O (see f) None fuel lsfuel (st, []) x0 = Some ((st', seen), out) ->
  length seen = 21%nat /\ out = Returned x0 (Some LBFGSERR_MAXIMUMLINESEARCH).
Proof.
  intros St n z f F G fuel lsfuel st x0 st' seen out O H1 H2 H3 Hn [H4 H4'] H5 H6.
  assert (Pn : 1 / 100000 < norm n (G x0)).
  { pose proof (Rmax_l 1 (norm n x0)). change (o_epsilon O : R) with (1 / 100000) in H4. lra. }
  assert (Pt : 1 / norm n (G x0) <= 100000).
  { apply (Rmult_le_reg_r (norm n (G x0))); [lra|]. unfold Rdiv. rewrite Rmult_assoc, Rinv_l by lra. lra. }
  destruct (falls n z O f F G fuel lsfuel st x0) with (st' := st') (seen := seen) (out := out) as (K & ys & K1 & K2 & K3 & K4 & _ & K5); try assumption.
  - right. split; reflexivity.
  - unfold documented, O, default_options. cbn. repeat split; try lia; try lra; destruct H as [H|H]; discriminate H.
  - cbn. lia.
  - cbn. lra.
  - cbn. lra.
  - change (o_min_step O : R) with (1 / 100000000000000000000). unfold Rdiv. rewrite !Rmult_1_l. apply Rinv_lt_contravar; [|cbn [pow] in H4'; lra].
    apply Rmult_lt_0_compat; [lra|lra].
  - change (o_max_linesearch O) with 20%Z in K2, K5. change (o_max_step O : R) with 100000000000000000000 in K5.
    assert (L : forall k l, leaps n x0 (G x0) (1 / norm n (G x0)) (o_max_step O) k l -> length l = k).
    { clear. induction k as [|k IH]; intros l Hl; [now rewrite Hl|]. destruct Hl as (l' & y & -> & _ & Hl). rewrite app_length, (IH _ Hl). cbn. lia. }
    destruct K5 as [(K5 & _)|(_ & K6 & K5)].
    + exfalso. unfold grown in K5. assert (B : 0 <= 4 ^ K - 1 <= 4 ^ 20 - 1).
      { split; [assert (1 <= 4 ^ K) by (apply pow_R1_Rle; lra); lra|]. assert (4 ^ K <= 4 ^ 20) by (apply Rle_pow; [lra|lia]). lra. }
      assert (B0 : 4 ^ 20 = 1099511627776) by (rewrite pow_IZR; reflexivity).
      assert (B2 : 1 / norm n (G x0) * (4 ^ K - 1) <= 100000 * (4 ^ 20 - 1)).
      { apply Rmult_le_compat; try lra. apply Rlt_le, Rdiv_lt_0_compat; lra. }
      lra.
    + split; [|exact K5]. assert (K = 20%nat) by lia. subst K. rewrite K3. cbn [length]. f_equal. apply L. exact K4.
Qed.
Print Assumptions C110_default.

(** The coordinate x itself, from 5, with the default options: the hypotheses hold. *)
Definition line_F (x : list R) : R := entry x 0.
Definition line_G (x : list R) : list R := [1].
Definition line_f : objective Rnum unit := fun st x _ => (st, (x, line_G x, Value (N := Rnum) (line_F x))).

Example C110_ex_hypotheses : let O := default_options (N := Rnum) 0 "default" in
  computes 1 nowhere line_f line_F line_G /\ vanishes nowhere [5] /\ searches O MoreThuente /\ documented O MoreThuente 1 /\ (0 <= o_m O)%Z /\
  o_epsilon O * Rmax 1 (norm 1 [5]) < norm 1 (line_G [5]) < 10 ^ 20 /\ below_tangents 1 line_F line_G /\ o_ftol O < 1 /\ o_gtol O < 1 /\
  o_min_step O < 1 / norm 1 (line_G [5]).
Proof.
  cbv zeta. assert (D : forall a b, dot 1 a b = entry a 0 * entry b 0) by (intros; unfold dot, Sum; cbn; ring).
  assert (E : norm 1 (line_G [5]) = 1) by (unfold norm; rewrite D; unfold line_G, entry; cbn [nth]; rewrite Rmult_1_r; apply sqrt_1).
  assert (E0 : norm 1 [5] = 5) by (unfold norm; rewrite D; unfold entry; cbn [nth]; apply sqrt_square; lra).
  split; [|split; [|split; [|split; [|split; [|split; [|split; [|split; [|split]]]]]]]].
  - intros st x g _ _. split; [reflexivity|]. split; [reflexivity|]. intros i Hi. discriminate.
  - intros i Hi. discriminate.
  - right. split; reflexivity.
  - unfold documented, default_options. cbn. repeat split; try lia; try lra; destruct H as [H|H]; discriminate H.
  - cbn. lia.
  - rewrite E, E0, Rmax_right by lra. change (o_epsilon _ : R) with (1 / 100000). cbn [pow]. lra.
  - intros x y _ _. unfold along, line_F, line_G, Sum, entry. cbn. lra.
  - cbn. lra.
  - cbn. lra.
  - rewrite E. cbn. lra.
Qed.
