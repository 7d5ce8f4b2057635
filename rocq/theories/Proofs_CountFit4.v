(** Proofs about UoI_Poisson in other units of the response (C125): with an information
    criterion the model depends on the unit. *)
From Coq Require Import ZArith String List Bool Arith Lia Reals Lra Psatz.
From Verif Require Import Prelude F64 Num Model_Intersection Model_Fit Model_Scores Model_Refit Model_Rescale Model_Poisson Model_Linear Model_Estimation Model_Selection Model_CountFit
  Proofs_Intersection Spec_Rescale Proofs_Rescale Spec_Poisson Proofs_Poisson Proofs_PoissonOpt Spec_Linear Proofs_Linear
  Spec_Estimation Proofs_Estimation Spec_Choice Spec_Units Proofs_Units3 Spec_CountFit Proofs_CountFit Proofs_CountFit2 Proofs_CountFit3.
Import ListNotations.
Local Open Scope R_scope.

Definition unit_y (m : R) : list R := [m; 5 * m; m; 5 * m].
Definition params_of (b : R) : Z := if nnonzero (N := Rnum) b then 1%Z else 0%Z.

Lemma nonzero_pos (v : R) : v <> 0 -> nnonzero (N := Rnum) v = true.
Proof. intro H. unfold nnonzero, nzero. cbn. unfold Reqb. destruct (Req_EM_T v 0); [easy|reflexivity]. Qed.
Lemma zero_nonzero : nnonzero (N := Rnum) 0 = false.
Proof. unfold nnonzero, nzero. cbn. unfold Reqb. destruct (Req_EM_T 0 0); [reflexivity|easy]. Qed.

Lemma mean4 (a b c d : R) : nmean (N := Rnum) [a; b; c; d] = (a + b + c + d) / 4.
Proof. rewrite (mean_n 4 [a; b; c; d] eq_refl). unfold Sum, entry. cbn [seq map fold_right nth]. replace (INR 4) with 4 by (cbn; ring). rr. field. Qed.

Lemma ll4 (y0 y1 y2 y3 p0 p1 p2 p3 : R) : 0 < p0 ->
  ll_poisson (N := Rnum) [y0; y1; y2; y3] [p0; p1; p2; p3] = (y0 * ln p0 - p0 + (y1 * ln p1 - p1) + (y2 * ln p2 - p2) + (y3 * ln p3 - p3)) / 4.
Proof. intro H. unfold ll_poisson, nany. cbn [existsb]. rewrite nonzero_pos by lra. cbn [orb negb]. apply mean4. Qed.

Section Unit.
  Variable m : R.
  Hypothesis Hm : 0 < m.

  Lemma crossed_none : exists v : R, estimate_count (N := Rnum) crossed_lm "AIC" 0 2 crossed (unit_y m) crossed_split [false; false] = Ok ([0; 0], v) /\
    v = - (2 * IZR (params_of (ln (3 * m))) - 2 * (12 * m * ln (3 * m) - 12 * m)).
  Proof.
    assert (A : nany (N := Rnum) (unit_y m) = true) by (unfold nany, unit_y; cbn [existsb]; rewrite nonzero_pos by lra; reflexivity).
    assert (B : no_features_intercept (N := Rnum) (unit_y m) = ln (3 * m)).
    { unfold no_features_intercept. unfold log_mean. rewrite ?A. unfold unit_y. rewrite mean4. change (ln ((m + 5 * m + m + 5 * m) / 4) = ln (3 * m)). f_equal. field. }
    unfold estimate_count. cbn [existsb orb].
    assert (T : take_rows (N := Rnum) (unit_y m) (fst crossed_split) = unit_y m) by reflexivity. rr. rewrite T, B.
    unfold poisson_score. change ("AIC" =? "log")%string with false. change (target_rows 0 crossed_split) with (fst crossed_split). rewrite T. cbn [bind].
    change (length (fst crossed_split)) with 4%nat. cbn [repeat].
    change (nexp (n := Rnum) (ln (3 * m))) with (exp (ln (3 * m))). rewrite exp_ln by lra.
    assert (L : ll_poisson (N := Rnum) (unit_y m) [3 * m; 3 * m; 3 * m; 3 * m] = 3 * m * ln (3 * m) - 3 * m) by (unfold unit_y; rewrite ll4 by lra; rr; field).
    rr. rewrite L. fold (params_of (ln (3 * m))). cbn [count].
    eexists. split; [reflexivity|].
    change (- (IZR (2 * (0 + params_of (ln (3 * m)))) - 2 * (IZR 4 * (3 * m * ln (3 * m) - 3 * m))) = - (2 * IZR (params_of (ln (3 * m))) - 2 * (12 * m * ln (3 * m) - 12 * m))).
    rewrite Z.add_0_l, mult_IZR. ring.
  Qed.
  Lemma crossed_first : exists v : R, estimate_count (N := Rnum) crossed_lm "AIC" 0 2 crossed (unit_y m) crossed_split [true; false] = Ok ([ln (5 * m) - ln m; 0], v) /\
    v = - (2 * (1 + IZR (params_of (ln m))) - 2 * (2 * m * ln m + 10 * m * ln (5 * m) - 12 * m)).
  Proof.
    unfold estimate_count. cbn [existsb orb].
    assert (T : take_rows (N := Rnum) (unit_y m) (fst crossed_split) = unit_y m) by reflexivity. rr. rewrite T.
    set (M := masked_columns [true; false] (matrix_rows (N := Rnum) crossed (fst crossed_split))).
    assert (EM : M = [[0]; [1]; [0]; [1]]) by reflexivity.
    assert (E : crossed_lm M (unit_y m) (nzero (N := Rnum)) (none (N := Rnum)) = ([ln (5 * m) - ln m], ln m)).
    { rewrite EM. unfold crossed_lm, unit_y, entry. cbn [nth length Nat.eqb]. change (nzero (N := Rnum)) with 0.
      replace (5 * m - 2 * 0) with (5 * m) by ring. replace (m + 2 * 0) with m by ring. reflexivity. }
    rr. rewrite E. cbn [fst snd]. unfold poisson_score. change ("AIC" =? "log")%string with false. change (target_rows 0 crossed_split) with (fst crossed_split). rewrite T.
    fold M. rewrite EM. unfold predict_mean. cbn [coef_ intercept_ bind].
    assert (P : map (fun v : R => nexp (n := Rnum) (nadd (n := Rnum) (ln m) v)) (matvec (N := Rnum) [[0]; [1]; [0]; [1]] [ln (5 * m) - ln m]) = [m; 5 * m; m; 5 * m]).
    { assert (Q0 : exp (ln m + (0 * (ln (5 * m) - ln m) + 0)) = m) by (rewrite <- (exp_ln m Hm) at 4; f_equal; ring).
      assert (Q1 : exp (ln m + (1 * (ln (5 * m) - ln m) + 0)) = 5 * m) by (rewrite <- (exp_ln (5 * m)) at 2 by lra; f_equal; ring).
      cbn. f_equal; [|f_equal; [|f_equal; [|f_equal]]]; (exact Q0 || exact Q1 || idtac). all: cbn; (refine (eq_trans _ Q0) || refine (eq_trans _ Q1)); f_equal; ring. }
    rr. rewrite P.
    assert (L : ll_poisson (N := Rnum) (unit_y m) [m; 5 * m; m; 5 * m] = (2 * m * ln m + 10 * m * ln (5 * m) - 12 * m) / 4) by (unfold unit_y; rewrite ll4 by lra; rr; field).
    rr. rewrite L. fold (params_of (ln m)).
    eexists. split; [reflexivity|].
    change (- (IZR (2 * (1 + params_of (ln m))) - 2 * (IZR 4 * ((2 * m * ln m + 10 * m * ln (5 * m) - 12 * m) / 4))) = - (2 * (1 + IZR (params_of (ln m))) - 2 * (2 * m * ln m + 10 * m * ln (5 * m) - 12 * m))).
    rewrite mult_IZR, plus_IZR. field.
  Qed.
End Unit.

Lemma ln5_ln3 : 0 < 10 * ln 5 - 12 * ln 3 < 5.
Proof.
  assert (P5 : forall n, ln (5 ^ n) = INR n * ln 5) by (intro k; apply ln_pow; lra).
  assert (P3 : forall n, ln (3 ^ n) = INR n * ln 3) by (intro k; apply ln_pow; lra).
  assert (P2 : forall n, ln (2 ^ n) = INR n * ln 2) by (intro k; apply ln_pow; lra).
  split.
  - pose proof (ln_increasing (3 ^ 6) (5 ^ 5) ltac:(lra) ltac:(lra)) as H. rewrite P3, P5 in H. cbn [INR] in H. lra.
  - pose proof (ln_increasing (5 ^ 10) (2 ^ 5 * 3 ^ 12) ltac:(lra) ltac:(lra)) as H. rewrite ln_mult in H by lra. rewrite P3, P5, P2 in H. cbn [INR] in H.
    pose proof (exp_ineq1 1 ltac:(lra)) as E. pose proof (ln_increasing 2 (exp 1) ltac:(lra) ltac:(lra)) as L. rewrite ln_exp in L. lra.
Qed.

Lemma best2 (c0 c1 : list R) (v0 v1 : R) : v0 <> v1 ->
  exists k : bool, best_estimate (N := Rnum) [(c0, v0); (c1, v1)] = Ok (if k then c1 else c0) /\ (k = true <-> v0 < v1).
Proof.
  intro D. unfold best_estimate. cbn [map fst snd]. destruct (argmax_spec [v0; v1] ltac:(discriminate)) as (k & E & L & H). rr. rewrite E. cbn [rmap].
  pose proof (H 0%nat ltac:(cbn; lia)) as H0. pose proof (H 1%nat ltac:(cbn; lia)) as H1. destruct k as [|[|k]]; cbn in *; [| |lia].
  - exists false. split; [reflexivity|]. split; [discriminate|intro; lra].
  - exists true. split; [reflexivity|]. split; [intros _; lra|reflexivity].
Qed.
Lemma bagged_one (c0 c1 : R) : bagged (N := Rnum) 2 [[c0; c1]] = [c0; c1].
Proof. unfold bagged. cbn [seq map nth]. assert (M : forall v : R, median (N := Rnum) [v] = v) by (intro v; apply (median_repeat v 1); lia). now rewrite !M. Qed.

Lemma unit_fit m : 0 < m -> m = 1 \/ m = / 5 -> exists b,
  count_fit (N := Rnum) false true (1 / 2) 2 [1] [1%Z] "AIC" 0 2 crossed_lm crossed_lm [crossed_split] [crossed_split] crossed (map (Rmult m) crossed_y)
  = Ok (if Rlt_dec m 1 then [0; 0] else [ln 5; 0], b).
Proof.
  intros Hm Hv. assert (Ey : map (Rmult m) crossed_y = unit_y m) by (unfold crossed_y, unit_y; cbn [map]; repeat (f_equal; try ring)).
  destruct (count_example m Hm) as (Es & _). rewrite Ey in *.
  destruct (crossed_none m Hm) as (v0 & E0 & V0). destruct (crossed_first m Hm) as (v1 & E1 & V1).
  rewrite (ln_mult 5 m) in V1, E1 by lra. rewrite (ln_mult 3 m) in V0 by lra.
  replace (ln 5 + ln m - ln m) with (ln 5) in E1 by ring.
  pose proof ln5_ln3 as [B1 B2].
  assert (K : v0 <> v1 /\ (v0 < v1 <-> m = 1)).
  { unfold params_of in *. destruct Hv as [-> | ->].
    - rewrite ln_1 in V0, V1. rewrite zero_nonzero in V1.
      assert (Q : ln 3 + 0 <> 0) by (pose proof (ln_increasing 1 3 ltac:(lra) ltac:(lra)) as Q; rewrite ln_1 in Q; lra).
      rewrite (nonzero_pos _ Q) in V0. split; [lra|]. split; [reflexivity|]. intros _. lra.
    - rewrite (ln_Rinv 5) in V0, V1 by lra.
      assert (Q1 : - ln 5 <> 0) by (pose proof (ln_increasing 1 5 ltac:(lra) ltac:(lra)) as Q; rewrite ln_1 in Q; lra).
      assert (Q0 : ln 3 + - ln 5 <> 0) by (pose proof (ln_increasing 3 5 ltac:(lra) ltac:(lra)) as Q; lra).
      rewrite (nonzero_pos _ Q1) in V1. rewrite (nonzero_pos _ Q0) in V0. split; [lra|]. split; [lra|]. intro; lra. }
  destruct K as (D & K). destruct (best2 [0; 0] [ln 5; 0] v0 v1 D) as (k & Eb & Hk).
  assert (C : constant_response (N := Rnum) (unit_y m) = false).
  { apply (not_constant 4 (unit_y m) eq_refl); [reflexivity|]. exists 0%nat, 1%nat. split; [lia|]. split; [lia|]. unfold entry, unit_y. cbn. lra. }
  assert (G : (if k then [ln 5; 0] else [0; 0]) = (if Rlt_dec m 1 then [0; 0] else [ln 5; 0])).
  { destruct Hv as [Hv|Hv]; destruct (Rlt_dec m 1) as [L|L]; try lra; destruct k; try reflexivity; exfalso.
    - pose proof (proj2 Hk (proj2 K Hv)). discriminate.
    - pose proof (proj1 K (proj1 Hk eq_refl)). lra. }
  eexists. unfold count_fit. unfold centering_transform. rewrite map_id. rr. rewrite C, Es.
  unfold count_module. cbn [mapM bind]. rr. rewrite E0. cbn [bind]. rewrite E1. cbn [bind]. rewrite Eb. cbn [bind]. rewrite G.
  assert (Gb : bagged (N := Rnum) 2 [if Rlt_dec m 1 then [0; 0] else [ln 5; 0]] = (if Rlt_dec m 1 then [0; 0] else [ln 5; 0])) by (destruct (Rlt_dec m 1); apply bagged_one).
  rr. rewrite Gb. cbn [fst snd poisson_post]. reflexivity.
Qed.
Lemma criteria_units : exists b b',
  count_fit (N := Rnum) false true (1 / 2) 2 [1] [1%Z] "AIC" 0 2 crossed_lm crossed_lm [crossed_split] [crossed_split] crossed crossed_y = Ok ([ln 5; 0], b) /\
  count_fit (N := Rnum) false true (1 / 2) 2 [1] [1%Z] "AIC" 0 2 crossed_lm crossed_lm [crossed_split] [crossed_split] crossed (map (Rmult (/ 5)) crossed_y) = Ok ([0; 0], b').
Proof.
  destruct (unit_fit 1 ltac:(lra) ltac:(now left)) as (b & E). destruct (unit_fit (/ 5) ltac:(lra) ltac:(now right)) as (b' & E').
  exists b, b'. replace (map (Rmult 1) crossed_y) with crossed_y in E by (unfold crossed_y; cbn [map]; repeat (f_equal; try ring)).
  destruct (Rlt_dec 1 1); [lra|]. destruct (Rlt_dec (/ 5) 1); [|lra]. split; [exact E|exact E'].
Qed.

Lemma criteria_found : exists X y (lm : solver_glm (N := Rnum)) sp s b b',
  only_minimizer (fun _ => 1) 4 1 (part X (fst sp) [true; false]) (part_y y (fst sp)) 0 1 (lm (part X (fst sp) [true; false]) (part_y y (fst sp)) 0 1) /\
  only_minimizer (fun _ => 1) 4 1 (part X (fst sp) [true; false]) (part_y (map (Rmult s) y) (fst sp)) 0 1
    (lm (part X (fst sp) [true; false]) (part_y (map (Rmult s) y) (fst sp)) 0 1) /\
  count_fit (N := Rnum) false true (1 / 2) 2 [1] [1%Z] "AIC" 0 2 lm lm [sp] [sp] X y = Ok ([ln 5; 0], b) /\
  count_fit (N := Rnum) false true (1 / 2) 2 [1] [1%Z] "AIC" 0 2 lm lm [sp] [sp] X (map (Rmult s) y) = Ok ([0; 0], b').
Proof.
  destruct criteria_units as (b & b' & E & E'). exists crossed, crossed_y, crossed_lm, crossed_split, (/ 5), b, b'.
  split; [exact (closed_one 1 5 0 ltac:(lra) ltac:(lra) ltac:(lra) eq_refl)|]. split; [|split; [exact E|exact E']].
  refine (closed_one (/ 5 * 1) (/ 5 * 5) 0 _ _ _ eq_refl); lra.
Qed.
