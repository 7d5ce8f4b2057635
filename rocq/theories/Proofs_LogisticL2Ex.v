(** Concrete L2 fits for C94. *)
From Coq Require Import ZArith List Bool Arith Reals Lra Lia.
From Verif Require Import Prelude Num Spec_Rescale Spec_Poisson Spec_Logistic Model_Poisson Model_Logistic Model_LogisticFit Spec_LogisticFit
  Proofs_Rescale Proofs_LogisticL2.
Import ListNotations.
Local Open Scope R_scope.

Lemma balanced t : 2 * ln 2 <= ln (1 + exp t) + ln (1 + exp (- t)).
Proof.
  pose proof (exp_pos t) as P. pose proof (exp_pos (- t)) as P'.
  assert (E : exp t * exp (- t) = 1) by (rewrite <- exp_plus, Rplus_opp_r; apply exp_0).
  rewrite <- ln_mult by lra. replace (2 * ln 2) with (ln 2 + ln 2) by ring. rewrite <- ln_mult by lra.
  assert (H : 2 * 2 <= (1 + exp t) * (1 + exp (- t))).
  { assert (Q : 0 <= (exp t - 1) * (exp t - 1)) by apply Rle_0_sqr.
    assert (Q2 : 0 <= (exp t - 1) * (exp t - 1) * exp (- t)) by (apply Rmult_le_pos; lra).
    replace ((exp t - 1) * (exp t - 1) * exp (- t)) with (exp t * (exp t * exp (- t)) - 2 * (exp t * exp (- t)) + exp (- t)) in Q2 by ring.
    rewrite E in Q2. replace ((1 + exp t) * (1 + exp (- t))) with (1 + exp t + exp (- t) + exp t * exp (- t)) by ring. rewrite E. lra. }
  destruct H as [H|H]; [left; apply ln_increasing; lra|right; now rewrite H].
Qed.

(** Two samples, the second feature masked, warm start (5, 9). *)
Definition l2_X : list (list R) := [[1; 3]; [1; -2]].
Definition l2_opt : (list R -> R * list R) -> list R -> list R := fun _ x0 => map (fun _ => 0) x0.

Lemma bin_loss u v : logistic_loss 2 2 l2_X (signs [0; 1]%nat) [1; 1] (1 / 1) [u; 0] v
  = / 2 * (ln (1 + exp (u + v)) + ln (1 + exp (- (u + v)))) + / 2 * (u * u).
Proof.
  unfold logistic_loss, eta, Sum, mat, entry, l2_X, signs. cbn [seq map fold_right nth Nat.eqb INR].
  replace (- (-1 * (v + (1 * u + (3 * 0 + 0))))) with (u + v) by ring.
  replace (- (1 * (v + (1 * u + (-2 * 0 + 0))))) with (- (u + v)) by ring. field.
Qed.
Lemma l2_bin_opt : minimizes_from l2_opt (kept [true; false; true] (map (start_entry (N := Rnum) 3 (Some [5; 9]) 0) (seq 0 3)))
  (fun x => logistic_loss 2 2 l2_X (signs [0; 1]%nat) [1; 1] (1 / 1) (firstn 2 (fill [true; false; true] x)) (entry (fill [true; false; true] x) 2)) 0.
Proof.
  intros f _. change (length (kept _ _)) with 2%nat. split; [reflexivity|]. intros x Hx. destruct x as [|u [|v [|? ?]]]; try discriminate Hx.
  change (logistic_loss 2 2 l2_X (signs [0; 1]%nat) [1; 1] (1 / 1) [0; 0] 0 <= logistic_loss 2 2 l2_X (signs [0; 1]%nat) [1; 1] (1 / 1) [u; 0] v + 0).
  rewrite !bin_loss. rewrite Rplus_0_r, Ropp_0, exp_0. pose proof (balanced (u + v)). pose proof (Rle_0_sqr u) as Q. unfold Rsqr in Q.
  replace (1 + 1) with 2 by ring. lra.
Qed.
Lemma l2_bin_free : free_entries true 1 2 (fun _ j => exists m, Some [1; 0] = Some m /\ entry m j = 0) [true; false; true].
Proof.
  split; [reflexivity|]. intros [|c] j Hc Hj; [|lia]. destruct j as [|[|[|j]]]; [| | |cbn in Hj; lia]; cbn [Nat.mul Nat.add nth].
  - split; [discriminate|]. intros [_ (m & E & H)]. injection E as <-. unfold entry in H. cbn in H. lra.
  - split; [intros _; split; [lia|]; exists [1; 0]; now split|reflexivity].
  - split; [discriminate|]. intros [H _]. lia.
Qed.

(** Two classes treated as several, one feature that only the first class may use. *)
Lemma mul_loss u : multi_loss 2 1 1 2 [[1]; [1]] (indicators 2 [0; 1]%nat) [1; 1] (1 / 1) [u; 0]
  = / 2 * (ln (1 + exp u) + ln (1 + exp (- u))) + / 2 * (u * u).
Proof.
  unfold multi_loss, class_eta, coefs, Sum, mat, entry, indicators, ind. cbn [seq map fold_right nth Nat.eqb Nat.ltb Nat.leb Nat.mul Nat.add INR].
  replace (1 * u + 0 + 0) with u by ring. replace (1 * 0 + 0 + 0) with 0 by ring. rewrite exp_0, Rplus_0_r.
  assert (E : ln (1 + exp (- u)) = ln (exp u + 1) - u).
  { rewrite <- (ln_exp u) at 3. rewrite exp_Ropp. pose proof (exp_pos u). unfold Rminus. rewrite <- ln_Rinv by lra. rewrite <- ln_mult by (try apply Rinv_0_lt_compat; lra).
    f_equal. field. lra. }
  rewrite E, (Rplus_comm 1 (exp u)). field.
Qed.
Lemma l2_mul_opt : minimizes_from l2_opt (kept [true; false] (starts 1 2 (Some [[7]; [8]]) (multi_intercept (N := Rnum) 2 [0; 1]%nat)))
  (fun x => multi_loss 2 1 1 2 [[1]; [1]] (indicators 2 [0; 1]%nat) [1; 1] (1 / 1) (fill [true; false] x)) 0.
Proof.
  intros f _. change (length (kept _ _)) with 1%nat. split; [reflexivity|]. intros x Hx. destruct x as [|u [|? ?]]; try discriminate Hx.
  change (multi_loss 2 1 1 2 [[1]; [1]] (indicators 2 [0; 1]%nat) [1; 1] (1 / 1) [0; 0] <= multi_loss 2 1 1 2 [[1]; [1]] (indicators 2 [0; 1]%nat) [1; 1] (1 / 1) [u; 0] + 0).
  rewrite !mul_loss. rewrite Ropp_0, exp_0. pose proof (balanced u). pose proof (Rle_0_sqr u) as Q. unfold Rsqr in Q.
  replace (1 + 1) with 2 by ring. lra.
Qed.
Lemma l2_mul_free : free_entries false 2 1 (fun c j => exists m, Some [[1]; [0]] = Some m /\ mat m c j = 0) [true; false].
Proof.
  split; [reflexivity|]. intros c j Hc Hj. assert (E : j = 0%nat) by (cbn in Hj; lia). subst j.
  destruct c as [|[|c]]; [| |lia]; cbn [Nat.mul Nat.add nth].
  - split; [discriminate|]. intros [_ (m & E & H)]. injection E as <-. unfold mat, entry in H. cbn in H. lra.
  - split; [intros _; split; [lia|]; exists [[1]; [0]]; now split|reflexivity].
Qed.
