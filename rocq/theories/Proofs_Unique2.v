(** Proofs about what the penalized logistic problems determine (C133). *)
From Coq Require Import ZArith String List Bool Arith Lia Reals Lra Psatz.
From Verif Require Import Prelude Spec_Rescale Proofs_Rescale Spec_Poisson Proofs_Poisson Spec_Linear Proofs_Linear Spec_Estimation Spec_Units Spec_ClassFit Proofs_LogisticGrid Proofs_Unique.
Import ListNotations.
Local Open Scope R_scope.

Definition soft (t : R) : R := ln (1 + exp t).
Lemma one_exp t : 0 < 1 + exp t.
Proof. pose proof (exp_pos t). lra. Qed.
(** The square of 1 + exp((u + v) / 2) falls short of the product by a square. *)
Lemma soft_square u v : (1 + exp u) * (1 + exp v) = (1 + exp ((u + v) / 2)) * (1 + exp ((u + v) / 2)) + (exp (u / 2) - exp (v / 2)) * (exp (u / 2) - exp (v / 2)).
Proof.
  replace ((u + v) / 2) with (u / 2 + v / 2) by field. replace (exp u) with (exp (u / 2 + u / 2)) by (f_equal; field). replace (exp v) with (exp (v / 2 + v / 2)) by (f_equal; field).
  rewrite !exp_plus. ring.
Qed.
Lemma soft_half u v : 2 * soft ((u + v) / 2) <= soft u + soft v /\ (2 * soft ((u + v) / 2) = soft u + soft v -> u = v).
Proof.
  unfold soft. pose proof (one_exp u) as Hu. pose proof (one_exp v) as Hv. pose proof (one_exp ((u + v) / 2)) as Hm.
  rewrite <- (ln_mult _ _ Hu Hv). replace (2 * ln (1 + exp ((u + v) / 2))) with (ln ((1 + exp ((u + v) / 2)) * (1 + exp ((u + v) / 2)))) by (rewrite ln_mult by exact Hm; ring).
  pose proof (soft_square u v) as Q. pose proof (Rmult_lt_0_compat _ _ Hm Hm) as P. set (d := exp (u / 2) - exp (v / 2)) in *. pose proof (Rle_0_sqr d) as D. unfold Rsqr in D.
  destruct (Req_dec d 0) as [E|E].
  - rewrite Q, E, Rmult_0_l, Rplus_0_r. split; [lra|]. intros _. assert (Ee : exp (u / 2) = exp (v / 2)) by (unfold d in E; lra). apply exp_inv in Ee. lra.
  - assert (D' : 0 < d * d) by (pose proof (Rsqr_pos_lt d E) as S; exact S). rewrite Q.
    pose proof (ln_increasing ((1 + exp ((u + v) / 2)) * (1 + exp ((u + v) / 2))) _ P ltac:(apply Rplus_lt_compat_l with (r := (1 + exp ((u + v) / 2)) * (1 + exp ((u + v) / 2))) in D'; rewrite Rplus_0_r in D'; exact D')) as L. split; lra.
Qed.

Lemma class_values n p X y lam m m' : (0 < n)%nat -> 0 <= lam -> class_minimizer n p X y lam m -> class_minimizer n p X y lam m' ->
  (forall i, (i < n)%nat -> eta p X (fst m) (snd m) i = eta p X (fst m') (snd m') i) /\
  lam * Sum p (fun j => Rabs (entry (fst m) j)) = lam * Sum p (fun j => Rabs (entry (fst m') j)).
Proof.
  destruct m as [c b], m' as [c' b']. cbn [fst snd]. intros Hn Hl (Lc & H) (Lc' & H'). cbn [fst snd] in *.
  pose proof (H c' b' Lc') as H1. pose proof (H' c b Lc) as H2. pose proof (H (between p c c') ((b + b') / 2) (length_between p c c')) as H3.
  pose proof (penalty_between (fun _ => 1) p lam 1 c c' Hl ltac:(lra)) as P. rewrite !scaled_one in P. unfold penalty in P. replace ((1 - 1) / 2) with 0 in P by field. replace ((1 - 1) / 8) with 0 in P by field.
  rewrite !Rmult_0_l, !Rplus_0_r, !Rmult_1_l, Rmult_0_r, Rminus_0_r in P. unfold class_objective in H1, H2, H3.
  set (short := fun i => 1 / 2 * (soft (eta p X c b i) + soft (eta p X c' b' i)) - soft ((eta p X c b i + eta p X c' b' i) / 2)).
  assert (Sp : forall i, (i < n)%nat -> 0 <= short i) by (intros i _; unfold short; pose proof (proj1 (soft_half (eta p X c b i) (eta p X c' b' i))); lra).
  assert (B : Sum n (fun i => ln (1 + exp (eta p X (between p c c') ((b + b') / 2) i)) - entry y i * eta p X (between p c c') ((b + b') / 2) i)
    = 1 / 2 * (Sum n (fun i => ln (1 + exp (eta p X c b i)) - entry y i * eta p X c b i) + Sum n (fun i => ln (1 + exp (eta p X c' b' i)) - entry y i * eta p X c' b' i)) - Sum n short).
  { rewrite <- (Sum_plus n (fun i => ln (1 + exp (eta p X c b i)) - entry y i * eta p X c b i) (fun i => ln (1 + exp (eta p X c' b' i)) - entry y i * eta p X c' b' i)),
      <- (Sum_scal n (fun i => ln (1 + exp (eta p X c b i)) - entry y i * eta p X c b i + (ln (1 + exp (eta p X c' b' i)) - entry y i * eta p X c' b' i))).
    rewrite <- (Sum_minus n (fun i => 1 / 2 * (ln (1 + exp (eta p X c b i)) - entry y i * eta p X c b i + (ln (1 + exp (eta p X c' b' i)) - entry y i * eta p X c' b' i))) short).
    apply Sum_ext. intros i Hi. rewrite eta_between. unfold short, soft. field. }
  rewrite B in H3. assert (P1 : 0 < / INR n) by (apply Rinv_0_lt_compat, lt_0_INR; exact Hn). pose proof (Sum_nonneg n short Sp) as Ps.
  assert (Z : Sum n short <= 0).
  { destruct (Rle_dec (Sum n short) 0) as [|N]; [assumption|exfalso]. apply Rnot_le_gt in N. pose proof (Rmult_lt_0_compat (/ INR n) (Sum n short) P1 N). lra. }
  assert (V : forall i, (i < n)%nat -> eta p X c b i = eta p X c' b' i).
  { intros i Hi. pose proof (Proofs_LinearUnits.Sum_term n short i Sp Hi) as T. pose proof (Sp i Hi) as T0. assert (Z0 : short i = 0) by lra. unfold short in Z0.
    apply (proj2 (soft_half (eta p X c b i) (eta p X c' b' i))). lra. }
  split; [exact V|].
  rewrite (Sum_ext n (fun i => ln (1 + exp (eta p X c b i)) - entry y i * eta p X c b i) (fun i => ln (1 + exp (eta p X c' b' i)) - entry y i * eta p X c' b' i)) in H1, H2 by (intros i Hi; now rewrite (V i Hi)).
  lra.
Qed.

(** ** A problem with two minimizers that use different features *)
Lemma soft_tangent t0 t : soft t0 + exp t0 / (1 + exp t0) * (t - t0) <= soft t.
Proof. unfold soft. apply Rge_le, Proofs_LogisticGrid.softplus_tangent. Qed.
Lemma class_swap : class_minimizer 2 2 [[1; 1]; [-1; -1]] [1; 0] (1 / 4) ([ln 3; 0], 0) /\ class_minimizer 2 2 [[1; 1]; [-1; -1]] [1; 0] (1 / 4) ([0; ln 3], 0).
Proof.
  assert (L3 : 0 < ln 3) by (rewrite <- ln_1; apply ln_increasing; lra).
  assert (E : forall c b, length c = 2%nat -> 1 / 2 * (soft (ln 3) + soft (- ln 3)) - 1 / 4 * ln 3 <= class_objective 2 2 [[1; 1]; [-1; -1]] [1; 0] (1 / 4) c b).
  { intros [|c [|e [|]]] b L; try discriminate. unfold class_objective, eta, Sum, mat, entry. cbn.
    pose proof (soft_tangent (ln 3) (b + (c + e))) as T1. pose proof (soft_tangent (- ln 3) (b - (c + e))) as T2. rewrite exp_Ropp in T2. rewrite exp_ln in T1, T2 by lra.
    replace (3 / (1 + 3)) with (3 / 4) in T1 by field. replace (/ 3 / (1 + / 3)) with (1 / 4) in T2 by field. unfold soft in T1 at 2, T2 at 2.
    replace (b + (1 * c + (1 * e + 0))) with (b + (c + e)) by ring. replace (b + (-1 * c + (-1 * e + 0))) with (b - (c + e)) by ring.
    pose proof (Rle_abs c). pose proof (Rle_abs e). replace (/ (1 + 1)) with (1 / 2) by lra. lra. }
  assert (V : forall a b, a = 0 /\ b = ln 3 \/ a = ln 3 /\ b = 0 -> class_objective 2 2 [[1; 1]; [-1; -1]] [1; 0] (1 / 4) [a; b] 0 = 1 / 2 * (soft (ln 3) + soft (- ln 3)) - 1 / 4 * ln 3).
  { intros a b Hab. unfold class_objective, eta, Sum, mat, entry. cbn.
    replace (0 + (1 * a + (1 * b + 0))) with (ln 3) by (destruct Hab as [[-> ->]|[-> ->]]; ring). replace (0 + (-1 * a + (-1 * b + 0))) with (- ln 3) by (destruct Hab as [[-> ->]|[-> ->]]; ring).
    replace (Rabs a + (Rabs b + 0)) with (ln 3) by (destruct Hab as [[-> ->]|[-> ->]]; rewrite Rabs_R0, (Rabs_pos_eq (ln 3)) by lra; ring). unfold soft. field. }
  split; (split; [reflexivity|]; intros c' b' L; cbn [fst snd]; rewrite V by auto; exact (E c' b' L)).
Qed.
