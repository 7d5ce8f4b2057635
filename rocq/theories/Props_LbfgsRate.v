(** C106: how fast, and that, the optimizer ends on strongly convex objectives. *)
From Coq Require Import String ZArith List Bool Arith Reals Lra Lia.
From Verif Require Import Prelude Num Spec_Rescale Model_Lbfgs Spec_Lbfgs Spec_LbfgsRate Proofs_Rescale Proofs_Poisson Proofs_LbfgsRate2 Props_LbfgsQuad.
Import ListNotations.
Local Open Scope R_scope.

(** Every reported step lowers F by a fixed multiple of the squared gradient, and by a fixed
    fraction of what is still to be gained. *)
Theorem C106_rate : forall (St : Type) n z (O : options Rnum) alg (f : objective Rnum St) progress F G mu M fuel lsfuel st x0 st' log out,
  computes n z f F G -> length x0 = n -> vanishes z x0 -> searches O alg -> (o_c O : R) = 0 -> curved O alg ->
  0 < mu -> 0 < M -> strongly_convex n F G mu -> lipschitz n G M ->
  recorded O f progress fuel lsfuel st x0 = Some (st', log, out) ->
  chain (fun x y => lowers n F G (gain O alg mu M) x y /\ contracts n F (1 - 2 * mu * gain O alg mu M) x y) x0 (map r_x log).
Proof. intros St n z O alg f progress F G mu M fuel lsfuel st x0 st' log out. intros. eapply (rate_call n z O alg f progress F G mu M fuel lsfuel st x0); eassumption. Qed.
Print Assumptions C106_rate.

(** The constant is positive. *)
Theorem C106_gain : forall n (O : options Rnum) alg mu M,
  searches O alg -> curved O alg -> documented O alg n -> 0 < mu -> 0 < M -> 0 < (o_ftol O : R) -> 0 < gain O alg mu M.
Proof. intros. eapply gain_positive; eassumption. Qed.
Print Assumptions C106_gain.

(** The number of steps, whatever the limit on iterations. *)
Theorem C106_iterations : forall (St : Type) n z (O : options Rnum) alg (f : objective Rnum St) progress F G mu M fuel lsfuel st x0 st' log out,
  computes n z f F G -> length x0 = n -> vanishes z x0 -> searches O alg -> (o_c O : R) = 0 -> curved O alg ->
  0 < mu -> 0 < M -> strongly_convex n F G mu -> lipschitz n G M ->
  recorded O f progress fuel lsfuel st x0 = Some (st', log, out) ->
  INR (length log) * (gain O alg mu M * (o_epsilon O * o_epsilon O)) <= norm n (G x0) * norm n (G x0) / (2 * mu).
Proof. intros St n z O alg f progress F G mu M fuel lsfuel st x0 st' log out. intros. eapply (rate_call n z O alg f progress F G mu M fuel lsfuel st x0); eassumption. Qed.
Print Assumptions C106_iterations.

(** The call ends, also with max_iterations = 0 (no limit), the default. *)
Theorem C106_terminates : forall (St : Type) n z (O : options Rnum) alg (f : objective Rnum St) progress F G mu M fuel lsfuel st x0,
  computes n z f F G -> length x0 = n -> vanishes z x0 -> searches O alg -> (o_c O : R) = 0 -> curved O alg ->
  0 < mu -> 0 < M -> strongly_convex n F G mu -> lipschitz n G M ->
  documented O alg n -> 0 < (o_ftol O : R) -> 0 < (o_epsilon O : R) -> (Z.to_nat (o_max_linesearch O) <= lsfuel)%nat ->
  norm n (G x0) * norm n (G x0) / (2 * mu * gain O alg mu M * (o_epsilon O * o_epsilon O)) < INR fuel ->
  fmin_lbfgs O f progress fuel lsfuel st x0 <> None.
Proof.
  intros St n z O alg f progress F G mu M fuel lsfuel st x0 H1 H2 H3 H4 H5 H6 H7 H8 H9 H10 H11 H12 H13 H14 H15.
  exact (call_ends n z O alg f progress F G mu M fuel lsfuel st x0 H1 H2 H3 H4 H5 H6 H7 H8 H9 H10 H11 H12 H13 H14 H15).
Qed.
Print Assumptions C106_terminates.

(** How close to the minimum a point returned without a warning is. *)
Theorem C106_accuracy : forall (St : Type) n z (O : options Rnum) (f : objective Rnum St) progress F G mu fuel lsfuel st x0 st' x,
  computes n z f F G -> length x0 = n -> vanishes z x0 -> (o_c O : R) = 0 -> 0 < mu -> strongly_convex n F G mu ->
  never_says LBFGS_ALREADY_MINIMIZED progress ->
  fmin_lbfgs O f progress fuel lsfuel st x0 = Some (st', Returned x None) ->
  forall u, length u = n ->
    F x - F u <= (o_epsilon O * Rmax 1 (norm n x)) * (o_epsilon O * Rmax 1 (norm n x)) / (2 * mu) /\
    (F u <= F x -> distance n x u <= 2 * (o_epsilon O * Rmax 1 (norm n x)) / mu).
Proof. intros St n z O f progress F G mu fuel lsfuel st x0 st' x. intros. eapply (returned_accuracy n z O f progress F G mu fuel lsfuel st x0); eassumption. Qed.
Print Assumptions C106_accuracy.

(** The quadratic of C105 with the default options: mu = 1, M = 4. *)
Example C106_ex_hypotheses :
  computes 2 nowhere ex_f ex_F ex_G /\ searches ex_O MoreThuente /\ (o_c ex_O : R) = 0 /\ curved ex_O MoreThuente /\
  strongly_convex 2 ex_F ex_G 1 /\ lipschitz 2 ex_G 4 /\ documented ex_O MoreThuente 2 /\
  0 < (o_ftol ex_O : R) /\ 0 < (o_epsilon ex_O : R) /\ o_max_iterations ex_O = 0%Z.
Proof.
  destruct C105_ex_hypotheses as (H1 & _ & H3 & H4 & H5 & _).
  split; [exact H1|]. split; [exact H3|]. split; [reflexivity|]. split; [cbn; lra|].
  assert (Sq : forall x y, distance 2 x y * distance 2 x y =
    (entry y 0 - entry x 0) * (entry y 0 - entry x 0) + (entry y 1 - entry x 1) * (entry y 1 - entry x 1)).
  { intros x y. unfold distance. rewrite sqrt_sqrt.
    - unfold Sum. cbn [seq map fold_right]. ring.
    - apply Sum_nonneg. intros. apply Rle_0_sqr. }
  split; [|split; [|split; [exact H5|split; [cbn; lra|split; [cbn; lra|reflexivity]]]]].
  - intros x y _ _. rewrite Sq. unfold along, Sum, ex_F, ex_G. cbn [seq map fold_right]. unfold entry. cbn [nth].
    set (a := nth 0 x 0). set (b := nth 1 x 0). set (c := nth 0 y 0). set (d := nth 1 y 0).
    assert (0 <= (c - a) * (c - a) + 2 * (c - a) * (d - b) + 2 * ((d - b) * (d - b))).
    { pose proof (Rle_0_sqr ((c - a) + (d - b))) as Q. pose proof (Rle_0_sqr (d - b)) as Q'. unfold Rsqr in *. lra. }
    lra.
  - intros x y _ _. assert (P1 : 0 <= distance 2 x y) by apply sqrt_pos.
    assert (P2 : 0 <= distance 2 (ex_G x) (ex_G y)) by apply sqrt_pos.
    assert (K : distance 2 (ex_G x) (ex_G y) * distance 2 (ex_G x) (ex_G y) <= 16 * (distance 2 x y * distance 2 x y)); [|nra].
    rewrite !Sq. unfold ex_G. unfold entry. cbn [nth].
    set (a := nth 0 x 0). set (b := nth 1 x 0). set (c := nth 0 y 0). set (d := nth 1 y 0).
    set (u := c - a). set (v := d - b).
    replace (2 * c + d - 1 - (2 * a + b - 1)) with (2 * u + v) by (unfold u, v; ring).
    replace (c + 3 * d - (a + 3 * b)) with (u + 3 * v) by (unfold u, v; ring).
    pose proof (Rle_0_sqr (u - v)) as Q. pose proof (Rle_0_sqr u) as Q1. pose proof (Rle_0_sqr v) as Q2. unfold Rsqr in *. lra.
Qed.

(** So that call ends. *)
Example C106_ex_terminates : exists K, forall fuel lsfuel, (K <= fuel)%nat -> (Z.to_nat (o_max_linesearch ex_O) <= lsfuel)%nat ->
  fmin_lbfgs ex_O ex_f None fuel lsfuel tt [0; 0] <> None.
Proof.
  destruct C106_ex_hypotheses as (A1 & A2 & A3 & A4 & A5 & A6 & A7 & A8 & A9 & _).
  set (q := norm 2 (ex_G [0; 0]) * norm 2 (ex_G [0; 0]) / (2 * 1 * gain ex_O MoreThuente 1 4 * (o_epsilon ex_O * o_epsilon ex_O))).
  assert (exists K, q < INR K) as [K HK].
  { exists (Z.to_nat (up (Rabs q))). destruct (archimed (Rabs q)) as [U _]. pose proof (Rle_abs q). pose proof (Rabs_pos q).
    rewrite INR_IZR_INZ, Z2Nat.id; [lra|]. apply le_IZR. lra. }
  exists K. intros fuel lsfuel Hf Hl.
  apply (C106_terminates unit 2 nowhere ex_O MoreThuente ex_f None ex_F ex_G 1 4 fuel lsfuel tt [0; 0]); try assumption; try lra; try reflexivity.
  - intros i Hi. discriminate.
  - apply le_INR in Hf. fold q. lra.
Qed.
