(** The grids of UoI_Lasso and UoI_ElasticNet (C101) and units of measurement under
    standardization (C102). *)
From Coq Require Import ZArith List Bool Arith Lia Reals Lra.
From Verif Require Import Prelude Num Model_Rescale Model_Refit Spec_Rescale Proofs_Rescale Model_Poisson Spec_Poisson
  Proofs_Poisson Proofs_PoissonOpt Model_Linear Spec_Linear Proofs_Linear Proofs_LinearUnits.
Import ListNotations.
Local Open Scope R_scope.

(** ** C101 *)

(** The largest penalty. *)
Theorem C101_largest : forall has n p X y mix, matrix n p X -> (0 < n)%nat -> length y = n -> (0 < p)%nat ->
  exists m, largest p (comoment has n X y) m /\ alpha_max (N := Rnum) has p X y mix = m / (INR n * mix).
Proof. intros has n p X y mix H1 H2 H3. exact (alpha_max_value has n p X y H1 H2 H3 mix). Qed.
Print Assumptions C101_largest.

(** It separates the penalties for which the model without features is a minimizer of the
    documented objective from those for which it is not. *)
Theorem C101_null_minimizer : forall has n p X y mix lam,
  matrix n p X -> (0 < n)%nat -> length y = n -> (0 < p)%nat -> 0 < mix <= 1 -> 0 <= lam ->
  (net_minimizer has n p X y lam mix (repeat 0 p) (if has then average n y else 0)
   <-> alpha_max (N := Rnum) has p X y mix <= lam).
Proof. intros has n p X y mix lam H1 H2 H3. exact (null_iff has n p X y H1 H2 H3 mix lam). Qed.
Print Assumptions C101_null_minimizer.

(** Above it every minimizer selects nothing. *)
Theorem C101_nothing_above : forall has n p X y mix lam c b,
  matrix n p X -> (0 < n)%nat -> length y = n -> (0 < p)%nat -> 0 < mix <= 1 ->
  alpha_max (N := Rnum) has p X y mix < lam ->
  net_minimizer has n p X y lam mix c b -> c = repeat 0 p.
Proof. intros has n p X y mix lam c b H1 H2 H3. exact (null_unique has n p X y H1 H2 H3 mix lam c b). Qed.
Print Assumptions C101_nothing_above.

(** UoI_Lasso: a geometric sequence from the largest penalty down to eps times it. *)
Theorem C101_lasso_grid : forall has p X (y : list R) (eps : R) num, 0 < eps -> (1 < num)%nat ->
  / 10 ^ 15 < alpha_max (N := Rnum) has p X y 1 ->
  exists g : list R, lasso_grid (N := Rnum) has p X y eps num = Ok g /\ length g = num /\
  (forall i, (i < num)%nat ->
     entry g i = alpha_max (N := Rnum) has p X y 1 * Rpower eps (INR i / INR (num - 1))) /\
  entry g 0 = alpha_max (N := Rnum) has p X y 1 /\
  entry g (num - 1) = alpha_max (N := Rnum) has p X y 1 * eps /\
  (eps < 1 -> forall i j, (i < j < num)%nat -> entry g j < entry g i).
Proof.
  intros has p X y eps num He Hn Hm.
  destruct (alpha_grid_value has p X y 1 eps num R1_neq_R0 He Hm) as (g & E & L & _ & V). exists g.
  assert (Hm0 : 0 < alpha_max (N := Rnum) has p X y 1).
  { apply Rlt_trans with (/ 10 ^ 15); [|assumption]. apply Rinv_0_lt_compat, pow_lt. lra. }
  split; [exact E|]. split; [exact L|]. split; [exact (V Hn)|]. split; [|split].
  - rewrite (V Hn) by lia. replace (INR 0 / INR (num - 1)) with 0 by (unfold Rdiv; cbn; ring).
    rewrite Rpower_O by assumption. apply Rmult_1_r.
  - rewrite (V Hn) by lia. replace (INR (num - 1) / INR (num - 1)) with 1 by (field; apply not_0_INR; lia).
    now rewrite Rpower_1.
  - intros He1 i j Hij. rewrite !(V Hn) by lia. now apply grid_decreasing.
Qed.
Print Assumptions C101_lasso_grid.

(** A grid of one value holds the smallest penalty, not the largest. *)
Theorem C101_single_penalty : forall has p X (y : list R) (mix eps : R), mix <> 0 -> 0 < eps ->
  / 10 ^ 15 < alpha_max (N := Rnum) has p X y mix ->
  alpha_grid (N := Rnum) has p X y mix eps 1 = Ok [alpha_max (N := Rnum) has p X y mix * eps].
Proof.
  intros has p X y mix eps H1 He Hm. destruct (alpha_grid_value has p X y mix eps 1 H1 He Hm) as (g & E & _ & V & _).
  now rewrite E, (V eq_refl).
Qed.
Print Assumptions C101_single_penalty.

(** Without correlations all penalties are 1e-15. *)
Theorem C101_flat_grid : forall has p X (y : list R) (mix eps : R) num, mix <> 0 ->
  alpha_max (N := Rnum) has p X y mix <= / 10 ^ 15 ->
  alpha_grid (N := Rnum) has p X y mix eps num = Ok (repeat (/ 10 ^ 15) num).
Proof. exact alpha_grid_flat. Qed.
Print Assumptions C101_flat_grid.

(** UoI_ElasticNet: one such sequence for every mixing weight, in order. *)
Theorem C101_elastic_grid : forall has p X (y : list R) (eps : R) num (alphas : list R), 0 < eps -> (1 < num)%nat ->
  (forall a, In a alphas -> a <> 0) ->
  (forall a, In a alphas -> / 10 ^ 15 < alpha_max (N := Rnum) has p X y a) ->
  exists g : list (reg_param R R), elastic_reg_params (N := Rnum) has p X y eps num alphas = Ok g /\
  length g = (length alphas * num)%nat /\
  forall k i, (k < length alphas)%nat -> (i < num)%nat ->
    nth_error g (k * num + i)
    = Some (RegPair (alpha_max (N := Rnum) has p X y (entry alphas k) * Rpower eps (INR i / INR (num - 1))) (entry alphas k)).
Proof. exact elastic_value. Qed.
Print Assumptions C101_elastic_grid.

(** The mixing weight 0 (ridge regression) is refused. *)
Theorem C101_no_ridge : forall has p X (y : list R) (eps : R) num (alphas : list R), In 0 alphas ->
  elastic_reg_params (N := Rnum) has p X y eps num alphas = Raise ValueError.
Proof. exact elastic_zero. Qed.
Print Assumptions C101_no_ridge.

(** With standardize=True and an intercept the largest penalty is the largest absolute
    correlation over the mixing weight, for the Lasso at most 1. *)
Theorem C101_standardized : forall n p X y mix, matrix n p X -> (0 < n)%nat -> (0 < p)%nat -> length y = n ->
  varies n y -> mix <> 0 ->
  let D := linear_pre (N := Rnum) true true p X y in
  exists m, largest p (fun j => correlation n (col n X j) y) m /\ m <= 1 /\
  alpha_max (N := Rnum) true p (fst D) (snd D) mix = m / mix.
Proof. intros n p X y mix H1 H2 H3 H4 H5. exact (std_alpha_max n p X y H1 H2 H3 H4 H5 mix). Qed.
Print Assumptions C101_standardized.

(** ** C102 *)

(** Linear regressors with standardize=True.  [core] is any procedure that gives features
    without variation the coefficient 0.  Without an intercept: changes of scale only. *)
Theorem C102_linear : forall n p a d X X2 s t y y2 has core x x2,
  (0 < n)%nat -> other_units n p a d X X2 -> other_response n s t y y2 -> varies n y ->
  (has = false -> t = 0 /\ forall j, (j < p)%nat -> d j = 0 /\ varies n (col n X j)) ->
  let c := core (linear_pre (N := Rnum) true has p X y) in
  length (fst c) = p -> (forall j, (j < p)%nat -> varies n (col n X j) \/ entry (fst c) j = 0) ->
  (has = false -> snd c = 0) -> other_sample p a d x x2 ->
  let r := linear_fit (N := Rnum) true has p core X y in
  let r2 := linear_fit (N := Rnum) true has p core X2 y2 in
  value p (fst r2) (snd r2) x2 = s * value p (fst r) (snd r) x + t /\
  forall j, (j < p)%nat -> entry (fst r2) j = s * entry (fst r) j / a j.
Proof.
  intros n p a d X X2 s t y y2 has core x x2 H1 H2 H3 H4 H5 c H6 H7 H8 H9 r r2. split.
  - exact (fit_value n p a d X X2 s t y y2 H1 H2 H3 H4 has H5 core H6 H7 H8 x x2 H9).
  - exact (fit_coef n p a d X X2 s t y y2 H1 H2 H3 H4 has H5 core H6 H7).
Qed.
Print Assumptions C102_linear.

(** The penalties are the same as well. *)
Theorem C102_same_penalties : forall n p a d X X2 s t y y2 has mix eps num,
  (0 < n)%nat -> other_units n p a d X X2 -> other_response n s t y y2 -> varies n y ->
  (has = false -> t = 0 /\ forall j, (j < p)%nat -> d j = 0 /\ varies n (col n X j)) ->
  let D := linear_pre (N := Rnum) true has p X y in
  let D2 := linear_pre (N := Rnum) true has p X2 y2 in
  alpha_grid (N := Rnum) has p (fst D2) (snd D2) mix eps num = alpha_grid (N := Rnum) has p (fst D) (snd D) mix eps num.
Proof.
  intros n p a d X X2 s t y y2 has mix eps num H1 H2 H3 H4 H5. cbv zeta.
  now rewrite (same_data n p a d X X2 s t y y2 H1 H2 H3 H4 has H5).
Qed.
Print Assumptions C102_same_penalties.

(** UoI_Poisson: with an intercept the predictions do not depend on the units; without,
    every shift of a feature changes the predictions. *)
Theorem C102_poisson : forall n p a d X X2 has core y x x2,
  (0 < n)%nat -> other_units n p a d X X2 ->
  let c := core (map (centering_transform (N := Rnum) true (fit_scaler (columns (N := Rnum) p X))) X, y) in
  length (fst c) = p -> (forall j, (j < p)%nat -> varies n (col n X j) \/ entry (fst c) j = 0) ->
  other_sample p a d x x2 ->
  let r := poisson_uoi_fit (N := Rnum) true has p core X y in
  let r2 := poisson_uoi_fit (N := Rnum) true has p core X2 y in
  value p (fst r2) (snd r2) x2
  = value p (fst r) (snd r) x + if has then 0 else Sum p (fun j => entry (fst r) j * (d j / a j)).
Proof. intros n p a d X X2 has core y x x2 H1 H2. exact (poisson_units n p a d X X2 H1 H2 has core y x x2). Qed.
Print Assumptions C102_poisson.

(** UoI_L1Logistic with an intercept: the decision depends on the units. *)
Theorem C102_logistic : forall n p a d X X2 (Y : Type) (core : list (list R) * Y -> list R * R) y x x2,
  (0 < n)%nat -> other_units n p a d X X2 ->
  let c := core (map (base_transform (N := Rnum) true true (fit_scaler (columns (N := Rnum) p X))) X, y) in
  length (fst c) = p -> (forall j, (j < p)%nat -> varies n (col n X j) \/ entry (fst c) j = 0) ->
  other_sample p a d x x2 ->
  let r := logistic_uoi_fit (N := Rnum) true true p core X y in
  let r2 := logistic_uoi_fit (N := Rnum) true true p core X2 y in
  value p (fst r2) (snd r2) x2
  = value p (fst r) (snd r) x
    + Sum p (fun j => entry (fst r) j * (d j / a j + deviation n (col n X j)
                      * (a j * average n (col n X j) + d j - average n (col n X j)))).
Proof. intros n p a d X X2 Y core y x x2 H1 H2. exact (logistic_units n p a d X X2 H1 H2 core y x x2). Qed.
Print Assumptions C102_logistic.

(** Without an intercept a change of scale changes nothing. *)
Theorem C102_logistic_no_intercept : forall n p a d X X2 (Y : Type) (core : list (list R) * Y -> list R * R) y x x2,
  (0 < n)%nat -> other_units n p a d X X2 -> (forall j, (j < p)%nat -> d j = 0 /\ varies n (col n X j)) ->
  let c := core (map (base_transform (N := Rnum) true false (fit_scaler (columns (N := Rnum) p X))) X, y) in
  length (fst c) = p -> other_sample p a d x x2 ->
  let r := logistic_uoi_fit (N := Rnum) true false p core X y in
  let r2 := logistic_uoi_fit (N := Rnum) true false p core X2 y in
  value p (fst r2) (snd r2) x2 = value p (fst r) (snd r) x.
Proof. intros n p a d X X2 Y core y x x2 H1 H2. exact (logistic_units_no_intercept n p a d X X2 H1 H2 core y x x2). Qed.
Print Assumptions C102_logistic_no_intercept.

(** Three samples of one feature.  In the data themselves the largest penalty is 4/3; in
    the bootstrap of the samples 0, 1, 1 it is 16/9, so that there the first penalty of
    the grid of the data does not yet exclude the feature. *)
Example C101_ex :
  let X := [[0]; [2]; [1]] in let y := [1; 5; 9] in
  matrix 3 1 X /\ largest 1 (comoment true 3 X y) 4 /\ alpha_max (N := Rnum) true 1 X y 1 = 4 / 3 /\
  / 10 ^ 15 < alpha_max (N := Rnum) true 1 X y 1.
Proof.
  cbv zeta. assert (M : matrix 3 1 [[0]; [2]; [1]]) by (split; [reflexivity|repeat constructor]).
  assert (E : comoment true 3 [[0]; [2]; [1]] [1; 5; 9] 0 = 4) by (cbv [comoment Sum average col mat entry map seq fold_right nth]; cbn [INR]; field).
  assert (G : largest 1 (comoment true 3 [[0]; [2]; [1]] [1; 5; 9]) 4).
  { split; [intros j Hj; assert (j = 0)%nat as -> by lia|exists 0%nat; split; [lia|]]; rewrite E, Rabs_right; lra. }
  destruct (C101_largest true 3 1 [[0]; [2]; [1]] [1; 5; 9] 1 M ltac:(lia) eq_refl ltac:(lia)) as (m & (_ & j & Hj & Ej) & A).
  assert (j = 0)%nat by lia. subst j. rewrite E, Rabs_right in Ej by lra. subst m.
  assert (A' : alpha_max (N := Rnum) true 1 [[0]; [2]; [1]] [1; 5; 9] 1 = 4 / 3) by (refine (eq_trans A _); change (4 / (INR 3 * 1) = 4 / 3); cbn [INR]; field).
  split; [exact M|]. split; [exact G|]. split; [exact A'|]. rewrite A'. lra.
Qed.
Example C101_bootstrap_ex :
  let X := [[0]; [2]; [2]] in let y := [1; 5; 5] in
  ~ net_minimizer true 3 1 X y (4 / 3) 1 [0] (average 3 y).
Proof.
  cbv zeta. assert (M : matrix 3 1 [[0]; [2]; [2]]) by (split; [reflexivity|repeat constructor]).
  assert (E : comoment true 3 [[0]; [2]; [2]] [1; 5; 5] 0 = 16 / 3) by (cbv [comoment Sum average col mat entry map seq fold_right nth]; cbn [INR]; field).
  intro H. apply (C101_null_minimizer true 3 1 [[0]; [2]; [2]] [1; 5; 5] 1 (4 / 3) M ltac:(lia) eq_refl ltac:(lia) ltac:(lra) ltac:(lra)) in H.
  destruct (C101_largest true 3 1 [[0]; [2]; [2]] [1; 5; 5] 1 M ltac:(lia) eq_refl ltac:(lia)) as (m & (_ & j & Hj & Ej) & A).
  assert (j = 0)%nat by lia. subst j. rewrite E, Rabs_right in Ej by lra. subst m. rewrite A in H. cbn [INR] in H. lra.
Qed.

(** A feature in other units (3 x + 10) and a response in other units (2 y + 1). *)
Example C102_ex :
  let X := [[0]; [2]] in let X2 := [[10]; [16]] in
  other_units 2 1 (fun _ => 3) (fun _ => 10) X X2 /\ other_response 2 2 1 [1; 5] [3; 11] /\ varies 2 [1; 5] /\
  varies 2 (col 2 X 0) /\ other_sample 1 (fun _ => 3) (fun _ => 10) [-4] [-2].
Proof.
  cbv zeta. split; [|split; [|split; [|split]]].
  - split; [split; [reflexivity|repeat constructor]|]. split; [split; [reflexivity|repeat constructor]|]. split; [intros; lra|].
    intros i j Hi Hj. assert (j = 0)%nat as -> by lia. destruct i as [|[|i]]; [| |lia]; unfold mat, entry; cbn [nth]; lra.
  - split; [reflexivity|]. split; [reflexivity|]. split; [lra|]. intros [|[|i]] Hi; [| |lia]; unfold entry; cbn [nth]; lra.
  - exists 0%nat, 1%nat. split; [lia|]. split; [lia|]. unfold entry; cbn [nth]; lra.
  - exists 0%nat, 1%nat. split; [lia|]. split; [lia|]. unfold col, mat, entry; cbn [map seq nth]; lra.
  - split; [reflexivity|]. split; [reflexivity|]. intros j Hj. assert (j = 0)%nat as -> by lia. unfold entry; cbn [nth]; lra.
Qed.

(** Logistic: the sample -4 is put into the negative class; the same sample in the other
    units (-2) into the positive one. *)
Example C102_logistic_ex :
  let core := fun _ : list (list R) * list nat => ([1], 0) in
  let r := logistic_uoi_fit (N := Rnum) true true 1 core [[0]; [2]] [0; 1]%nat in
  let r2 := logistic_uoi_fit (N := Rnum) true true 1 core [[10]; [16]] [0; 1]%nat in
  value 1 (fst r) (snd r) [-4] < 0 /\ 0 < value 1 (fst r2) (snd r2) [-2].
Proof.
  intros core r r2. destruct C102_ex as (U & _ & _ & V & S).
  assert (L : value 1 (fst r2) (snd r2) [-2] = value 1 (fst r) (snd r) [-4]
    + Sum 1 (fun j => entry (fst r) j * (10 / 3 + deviation 2 (col 2 [[0]; [2]] j)
                      * (3 * average 2 (col 2 [[0]; [2]] j) + 10 - average 2 (col 2 [[0]; [2]] j))))).
  { refine (C102_logistic 2 1 (fun _ => 3) (fun _ => 10) [[0]; [2]] [[10]; [16]] (list nat) core [0; 1]%nat [-4] [-2]
      ltac:(lia) U eq_refl _ S). intros j Hj. left. assert (j = 0)%nat as -> by lia. exact V. }
  assert (A : average 2 (col 2 [[0]; [2]] 0) = 1) by (cbv [Sum average col mat entry map seq fold_right nth]; cbn [INR]; field).
  assert (D : deviation 2 (col 2 [[0]; [2]] 0) = 1).
  { unfold deviation. replace (Sum 2 _ / INR 2) with (1 * 1); [apply sqrt_square; lra|].
    cbv [Sum average col mat entry map seq fold_right nth]. cbn [INR]. field. }
  assert (E : r = ([1], 1)).
  { assert (Q : column_scale (N := Rnum) (col 2 [[0]; [2]] 0) = 1) by (rewrite (scale_varies 2 _ ltac:(lia) (length_col 2 _ 0) V); exact D).
    unfold r, logistic_uoi_fit. rewrite (scaler_value 2 1 [[0]; [2]] (proj1 U)). unfold means, scales. cbn [map seq]. rewrite Q, A.
    change (([1 / 1], 0 + (1 * 1 * (1 / 1) + 0)) = ([1], 1)). f_equal; [f_equal|]; field. }
  rewrite E in L. unfold value at 2 in L. rewrite E. split.
  - unfold value. cbv [Sum entry nth fold_right map seq fst snd]. lra.
  - rewrite L. cbv [Sum]. cbn [seq map fold_right fst snd]. rewrite D, A. unfold entry. cbn [nth]. lra.
Qed.
