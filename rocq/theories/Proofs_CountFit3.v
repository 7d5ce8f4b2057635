(** Proofs about UoI_Poisson in other units of the response (C125): two crossed binary
    features, of which the first changes the counts.  The minimizers have a closed form. *)
From Coq Require Import ZArith String List Bool Arith Lia Reals Lra Psatz.
From Verif Require Import Prelude F64 Num Model_Intersection Model_Fit Model_Scores Model_Refit Model_Rescale Model_Poisson Model_Linear Model_Estimation Model_Selection Model_CountFit
  Proofs_Intersection Spec_Rescale Proofs_Rescale Spec_Poisson Proofs_Poisson Proofs_PoissonOpt Spec_Linear Proofs_Linear
  Spec_Estimation Proofs_Estimation Spec_Choice Spec_Units Spec_CountFit Proofs_CountFit Proofs_CountFit2.
Import ListNotations.
Local Open Scope R_scope.

Definition crossed : list (list R) := [[0; 0]; [1; 0]; [0; 1]; [1; 1]].
Definition crossed_y : list R := [1; 5; 1; 5].
Definition crossed_split : list nat * list nat := ([0; 1; 2; 3]%nat, [0; 1]%nat).
(** The minimizer for data of this form. *)
Definition crossed_lm : solver_glm (N := Rnum) := fun X y lam mix =>
  let c := ln (entry y 1 - 2 * lam) - ln (entry y 0 + 2 * lam) in
  (if (length (nth 0 X []) =? 1)%nat then [c] else [c; 0], ln (entry y 0 + 2 * lam)).

Lemma tangent_at A u : 0 < A -> A + A * (u - ln A) <= exp u.
Proof. intro H. pose proof (exp_tangent u (ln A)) as T. now rewrite exp_ln in T by exact H. Qed.
Lemma tangent_only A u : 0 < A -> exp u <= A + A * (u - ln A) -> u = ln A.
Proof.
  intros H Hu. destruct (Req_dec (u - ln A) 0) as [E|E]; [lra|]. exfalso. pose proof (exp_ineq1 _ E) as T.
  assert (Q : exp u = A * exp (u - ln A)) by (rewrite <- (exp_ln A H) at 1; rewrite <- exp_plus; f_equal; ring).
  pose proof (Rmult_lt_compat_l A _ _ H T). lra.
Qed.

Section Closed.
  Variables (m0 m1 lam : R).
  Hypothesis Hm : 0 < m0.
  Hypothesis Hlam : 0 <= lam.
  Hypothesis Hle : m0 + 2 * lam <= m1 - 2 * lam.
  Let A := m0 + 2 * lam.
  Let B := m1 - 2 * lam.
  Let one := fun _ : nat => 1.
  Let y := [m0; m1; m0; m1].

  Lemma A_pos : 0 < A. Proof. unfold A. lra. Qed.
  Lemma B_pos : 0 < B. Proof. unfold B. lra. Qed.
  Lemma c_nonneg : 0 <= ln B - ln A.
  Proof. destruct (Rle_lt_or_eq_dec A B Hle) as [H|H]; [pose proof (ln_increasing A B A_pos H); lra|rewrite H; lra]. Qed.

  Lemma objective_two c1 c2 b : count_objective one 4 2 crossed y lam 1 [c1; c2] b =
    / 4 * (exp b - m0 * b + (exp (b + c1) - m1 * (b + c1)) + (exp (b + c2) - m0 * (b + c2)) + (exp (b + c1 + c2) - m1 * (b + c1 + c2))) + lam * (Rabs c1 + Rabs c2).
  Proof.
    unfold count_objective, penalty, eta, mat, crossed, y, one, Sum, entry. cbn [seq map fold_right nth].
    replace (INR 4) with 4 by (cbn; ring).
    replace (b + (0 * c1 + (0 * c2 + 0))) with b by ring. replace (b + (1 * c1 + (0 * c2 + 0))) with (b + c1) by ring.
    replace (b + (0 * c1 + (1 * c2 + 0))) with (b + c2) by ring. replace (b + (1 * c1 + (1 * c2 + 0))) with (b + c1 + c2) by ring.
    rewrite !Rmult_1_l.  field.
  Qed.
  Lemma closed_two : only_minimizer one 4 2 crossed y lam 1 ([ln B - ln A; 0], ln A).
  Proof.
    pose proof A_pos as HA. pose proof B_pos as HB. pose proof c_nonneg as Hc.
    assert (V : count_objective one 4 2 crossed y lam 1 [ln B - ln A; 0] (ln A) = / 2 * (A - m0 * ln A + B - m1 * ln B) + lam * (ln B - ln A)).
    { rewrite objective_two. replace (ln A + (ln B - ln A)) with (ln B) by ring. rewrite !Rplus_0_r, Rabs_R0, !exp_ln by assumption. rewrite (Rabs_pos_eq _ Hc). field. }
    split.
    - split; [reflexivity|]. intros c' b' L. destruct c' as [|c1 [|c2 [|? ?]]]; try discriminate. cbn [fst snd]. rewrite V, objective_two.
      pose proof (tangent_at A b' HA) as T1. pose proof (tangent_at A (b' + c2) HA) as T2.
      pose proof (tangent_at B (b' + c1) HB) as T3. pose proof (tangent_at B (b' + c1 + c2) HB) as T4.
      pose proof (Rmult_le_compat_l lam _ _ Hlam (Rle_abs c1)) as P1. pose proof (Rmult_le_pos _ _ Hlam (Rabs_pos c2)) as P2.
      unfold A, B in *. nra.
    - intros [c' b'] [L Hmin]. cbn [fst snd] in *. destruct c' as [|c1 [|c2 [|? ?]]]; try discriminate.
      specialize (Hmin [ln B - ln A; 0] (ln A) eq_refl). rewrite V, objective_two in Hmin.
      pose proof (tangent_at A b' HA) as T1. pose proof (tangent_at A (b' + c2) HA) as T2.
      pose proof (tangent_at B (b' + c1) HB) as T3. pose proof (tangent_at B (b' + c1 + c2) HB) as T4.
      pose proof (Rmult_le_compat_l lam _ _ Hlam (Rle_abs c1)) as P1. pose proof (Rmult_le_pos _ _ Hlam (Rabs_pos c2)) as P2.
      assert (E1 : b' = ln A) by (apply tangent_only; [exact HA|]; unfold A, B in *; nra).
      assert (E2 : b' + c2 = ln A) by (apply tangent_only; [exact HA|]; unfold A, B in *; nra).
      assert (E3 : b' + c1 = ln B) by (apply tangent_only; [exact HB|]; unfold A, B in *; nra).
      f_equal; [|exact E1]. f_equal; [lra|]. f_equal. lra.
  Qed.
  Hypothesis Hzero : lam = 0.
  Let col : list (list R) := [[0]; [1]; [0]; [1]].
  Lemma objective_one c1 b : count_objective one 4 1 col y lam 1 [c1] b =
    / 2 * (exp b - m0 * b + (exp (b + c1) - m1 * (b + c1))).
  Proof.
    unfold count_objective, penalty, eta, mat, col, y, one, Sum, entry. cbn [seq map fold_right nth]. rewrite Hzero.
    replace (INR 4) with 4 by (cbn; ring). replace (b + (0 * c1 + 0)) with b by ring. replace (b + (1 * c1 + 0)) with (b + c1) by ring. field.
  Qed.
  Lemma closed_one : only_minimizer one 4 1 col y lam 1 ([ln B - ln A], ln A).
  Proof.
    pose proof A_pos as HA. pose proof B_pos as HB.
    assert (V : count_objective one 4 1 col y lam 1 [ln B - ln A] (ln A) = / 2 * (A - m0 * ln A + B - m1 * ln B)).
    { rewrite objective_one. replace (ln A + (ln B - ln A)) with (ln B) by ring. rewrite !exp_ln by assumption. field. }
    split.
    - split; [reflexivity|]. intros c' b' L. destruct c' as [|c1 [|? ?]]; try discriminate. cbn [fst snd]. rewrite V, objective_one.
      pose proof (tangent_at A b' HA) as T1. pose proof (tangent_at B (b' + c1) HB) as T3. unfold A, B in *. rewrite Hzero in *. nra.
    - intros [c' b'] [L Hmin]. cbn [fst snd] in *. destruct c' as [|c1 [|? ?]]; try discriminate.
      specialize (Hmin [ln B - ln A] (ln A) eq_refl). rewrite V, objective_one in Hmin.
      pose proof (tangent_at A b' HA) as T1. pose proof (tangent_at B (b' + c1) HB) as T3.
      assert (E1 : b' = ln A) by (apply tangent_only; [exact HA|]; unfold A, B in *; rewrite Hzero in *; nra).
      assert (E3 : b' + c1 = ln B) by (apply tangent_only; [exact HB|]; unfold A, B in *; rewrite Hzero in *; nra).
      f_equal; [|exact E1]. f_equal. lra.
  Qed.
End Closed.

Lemma crossed_matrix : matrix 4 2 crossed.
Proof. split; [reflexivity|]. unfold crossed. repeat constructor. Qed.
Lemma crossed_max : poisson_lambda_max (N := Rnum) 2 crossed crossed_y 1 = 1.
Proof.
  destruct (lambda_max_value 4 2 crossed crossed_y crossed_matrix ltac:(lia) ltac:(lia) eq_refl 1) as (m & M1 & (j & Hj & M2) & ->).
  assert (C0 : cov 4 crossed crossed_y 0 = 4) by (unfold cov, average, Sum, mat, entry, crossed, crossed_y; cbn; field).
  assert (C1 : cov 4 crossed crossed_y 1 = 0) by (unfold cov, average, Sum, mat, entry, crossed, crossed_y; cbn; field).
  assert (Em : m = 4).
  { pose proof (M1 0%nat ltac:(lia)) as Q. rewrite C0, Rabs_pos_eq in Q by lra. destruct j as [|[|?]]; [| |lia].
    - rewrite <- M2, C0. apply Rabs_pos_eq. lra.
    - rewrite C1, Rabs_R0 in M2. lra. }
  rr. rewrite Em. replace (INR 4) with 4 by (cbn; ring). field.
Qed.
Lemma crossed_params : poisson_reg_params (N := Rnum) 2 crossed crossed_y (1 / 2) 2 [1] = [RegPair 1 1; RegPair (1 / 2) 1].
Proof.
  pose proof (grid_length 2 crossed crossed_y (1 / 2) 2 1) as L.
  pose proof (grid_value 2 crossed crossed_y (1 / 2) 2 1 0) as V0. pose proof (grid_value 2 crossed crossed_y (1 / 2) 2 1 1) as V1.
  rewrite crossed_max in V0, V1. specialize (V0 ltac:(lra) ltac:(lra) ltac:(lia)). specialize (V1 ltac:(lra) ltac:(lra) ltac:(lia)).
  unfold poisson_reg_params. cbn [map]. destruct (poisson_grid (N := Rnum) 2 crossed crossed_y (1 / 2) 2 1) as [|g0 [|g1 [|? ?]]]; try discriminate.
  unfold entry in V0, V1. cbn [nth] in V0, V1. cbn in V0, V1.
  replace (0 / 1) with 0 in V0 by field. rewrite Rpower_O, Rmult_1_l in V0 by lra. replace (1 / 1) with 1 in V1 by field. rewrite Rpower_1, Rmult_1_l in V1 by lra.
  rewrite V0, V1. reflexivity.
Qed.
Lemma crossed_support : count_select (N := Rnum) 2 (1 / 2) 2 [1] crossed_lm [1%Z] [crossed_split] crossed crossed_y = [[false; false]; [true; false]].
Proof.
  unfold count_select. rr. rewrite crossed_params. unfold selection_module, stable_rows, selection_sweep.
  cbn [flat_map app map length seq nth apply_params count crossed_split fst]. unfold crossed_lm.
  assert (E : (length (nth 0 (matrix_rows (N := Rnum) crossed [0; 1; 2; 3]%nat) []) =? 1)%nat = false) by reflexivity.
  rr. rewrite E. cbn [fst nth].
  assert (Z0 : nnonzero (N := Rnum) 0 = false) by (unfold nnonzero, nzero; cbn; unfold Reqb; destruct (Req_EM_T 0 0); [reflexivity|easy]).
  assert (N0 : nnonzero (N := Rnum) (ln (entry (take_rows (N := Rnum) crossed_y [0; 1; 2; 3]%nat) 1 - 2 * 1) - ln (entry (take_rows (N := Rnum) crossed_y [0; 1; 2; 3]%nat) 0 + 2 * 1)) = false).
  { rewrite <- Z0. f_equal. unfold entry. cbn. replace (5 - 2 * 1) with (1 + 2 * 1) by ring. ring. }
  assert (N1 : nnonzero (N := Rnum) (ln (entry (take_rows (N := Rnum) crossed_y [0; 1; 2; 3]%nat) 1 - 2 * (1 / 2)) - ln (entry (take_rows (N := Rnum) crossed_y [0; 1; 2; 3]%nat) 0 + 2 * (1 / 2))) = true).
  { unfold nnonzero, nzero. cbn. unfold Reqb. destruct (Req_EM_T _ 0) as [C|]; [|reflexivity]. exfalso.
    pose proof (ln_increasing (1 + 2 * (1 / 2)) (5 - 2 * (1 / 2)) ltac:(lra) ltac:(lra)) as Q. unfold entry in C. cbn in C. lra. }
  rr. rewrite N0, N1, Z0. reflexivity.
Qed.

Lemma crossed_closed m0 m1 lam : 0 < m0 -> 0 <= lam -> m0 + 2 * lam <= m1 - 2 * lam ->
  only_minimizer (fun _ => 1) 4 2 crossed [m0; m1; m0; m1] lam 1 (crossed_lm crossed [m0; m1; m0; m1] lam 1).
Proof. intros H0 H1 H2. exact (closed_two m0 m1 lam H0 H1 H2). Qed.

Lemma count_example s : 0 < s ->
  count_select (N := Rnum) 2 (1 / 2) 2 [1] crossed_lm [1%Z] [crossed_split] crossed (map (Rmult s) crossed_y) = [[false; false]; [true; false]] /\ exists c b,
  count_fit (N := Rnum) false true (1 / 2) 2 [1] [1%Z] "log" 1 2 crossed_lm crossed_lm [crossed_split] [crossed_split] crossed crossed_y = Ok (c, b) /\
  count_fit (N := Rnum) false true (1 / 2) 2 [1] [1%Z] "log" 1 2 crossed_lm crossed_lm [crossed_split] [crossed_split] crossed (map (Rmult s) crossed_y) = Ok (c, b + ln s).
Proof.
  intro Hs. destruct (count_converted false 1 4 2 crossed crossed_y s (1 / 2) 2 [1] [1%Z] crossed_lm crossed_lm [crossed_split] [crossed_split] (fun _ _ => 1)) as (Es & c & b & E & E2 & _).
  - exact crossed_matrix.
  - reflexivity.
  - lia.
  - exact Hs.
  - lra.
  - lia.
  - discriminate.
  - discriminate.
  - discriminate.
  - exists 0%nat, 1%nat. split; [lia|]. split; [lia|]. unfold entry, crossed_y. cbn. lra.
  - unfold average, Sum, entry, crossed_y. cbn. lra.
  - intros a [<-|[]]. unfold centering_transform. rewrite map_id, crossed_max. lra.
  - intros sp lam mix [<-|[]]. unfold centering_transform. rewrite map_id. rr. rewrite crossed_params. intro H.
    assert (Hq : mix = 1 /\ 0 <= lam /\ 1 + 2 * lam <= 5 - 2 * lam).
    { destruct H as [H|[H|[]]]; injection H as <- <-; lra. }
    destruct Hq as (-> & Hl & Hb). cbv zeta.
    change (samples crossed (fst crossed_split)) with crossed. change (part_y crossed_y (fst crossed_split)) with [1; 5; 1; 5].
    change (length (fst crossed_split)) with 4%nat. change (map (Rmult s) [1; 5; 1; 5]) with [s * 1; s * 5; s * 1; s * 5].
    destruct (crossed_closed 1 5 lam ltac:(lra) Hl Hb) as [M U]. split; [|split].
    + intros m m' Hm Hm'. rewrite (U m Hm), (U m' Hm'). intros j _. reflexivity.
    + exact M.
    + refine (proj1 (crossed_closed (s * 1) (s * 5) (s * lam) _ _ _)); nra.
  - intros sp [<-|[]]. cbv zeta. split; [intros i Hi; cbn in Hi; lia|]. split; [discriminate|]. split; [discriminate|]. split.
    { unfold average, Sum, entry, crossed_y. cbn. lra. }
    intro mask. unfold centering_transform at 1. rewrite map_id. rr. rewrite crossed_support. intros [<-|[<-|[]]] Hmask; [discriminate|].
    exists (fun _ => 1). unfold centering_transform. rewrite map_id.
    change (part crossed (fst crossed_split) [true; false]) with [[0]; [1]; [0]; [1]]. change (part_y crossed_y (fst crossed_split)) with [1; 5; 1; 5].
    change (length (fst crossed_split)) with 4%nat. change (map (Rmult s) [1; 5; 1; 5]) with [s * 1; s * 5; s * 1; s * 5]. change (count (fun b => b) [true; false]) with 1%nat.
    split; [exact (closed_one 1 5 0 ltac:(lra) ltac:(lra) ltac:(lra) eq_refl)|].
    refine (proj1 (closed_one (s * 1) (s * 5) 0 _ _ _ eq_refl)); lra.
  - split; [|exists c, b; split; [exact E|exact E2]]. unfold centering_transform in Es. rewrite map_id in Es. rewrite <- crossed_support. exact Es.
Qed.
