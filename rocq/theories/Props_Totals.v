(** C126: totals of the fitted values (real numbers). *)
From Coq Require Import ZArith String List Bool Arith Lia Reals Lra.
From Verif Require Import Prelude F64 Num Model_Intersection Model_Fit Model_Refit Model_Rescale Model_Poisson Model_Linear Model_Estimation Model_Selection Model_CountFit
  Spec_Rescale Spec_Poisson Spec_Linear Proofs_Choice3 Proofs_Estimation5 Proofs_Units4 Proofs_Units4 Proofs_CountFit3 Proofs_Totals.
Import ListNotations.
Local Open Scope R_scope.

(** UoI_Lasso, UoI_ElasticNet and every other regressor on the base class, with
    fit_intercept: the residuals on the training data sum to zero, for every selection of
    supports, all bootstraps and whatever the least squares solver returns. *)
Theorem C126_residuals : forall n p X (y : list R), matrix n p X -> (0 < n)%nat -> length y = n ->
  forall standardize metric target (ols : solver_ls (N := Rnum)) select est c b,
  regressor_fit (N := Rnum) standardize true metric target p ols select est X y = Ok (c, b) ->
  length c = p /\ Sum n (fun i => entry y i - eta p X c b i) = 0.
Proof. exact residuals. Qed.
Print Assumptions C126_residuals.

(** The data of C123, which UoI_Lasso fits. *)
Example C126_ex : exists c b,
  lasso_fit (N := Rnum) false true (1 / 2) 2 [1%Z] "r2" 1 2 net_balanced ols_centered [half_split] [half_split] two_by_two y_noisy = Ok (c, b) /\
  Sum 8 (fun i => entry y_noisy i - eta 2 two_by_two c b i) = 0.
Proof.
  destruct lasso_example as (c & b & E & _). exists c, b. split; [exact E|].
  exact (proj2 (C126_residuals 8 2 two_by_two y_noisy matrix_two ltac:(lia) eq_refl _ _ _ _ _ _ c b E)).
Qed.

(** UoI_Poisson with fit_intercept: the predicted means of the training data have the same
    total as the counts, whatever the solvers return. *)
Theorem C126_counts : forall n p X (y : list R), matrix n p X -> (0 < n)%nat -> length y = n ->
  forall standardize eps num alphas ts metric target (sel_lm est_lm : solver_glm (N := Rnum)) sel est c b,
  0 < Sum n (fun i => entry y i) ->
  count_fit (N := Rnum) standardize true eps num alphas ts metric target p sel_lm est_lm sel est X y = Ok (c, b) ->
  length c = p /\ Sum n (fun i => exp (eta p X c b i)) = Sum n (fun i => entry y i).
Proof. exact count_total. Qed.
Print Assumptions C126_counts.

Example C126_ex_counts : exists c b,
  count_fit (N := Rnum) false true (1 / 2) 2 [1] [1%Z] "log" 1 2 crossed_lm crossed_lm [crossed_split] [crossed_split] crossed crossed_y = Ok (c, b) /\
  Sum 4 (fun i => exp (eta 2 crossed c b i)) = 12.
Proof.
  destruct (count_example 1 Rlt_0_1) as (_ & c & b & E & _). exists c, b. split; [exact E|].
  assert (T : Sum 4 (fun i => entry crossed_y i) = 12) by (unfold Sum, entry, crossed_y; cbn; ring). rewrite <- T.
  refine (proj2 (C126_counts 4 2 crossed crossed_y crossed_matrix ltac:(lia) eq_refl _ _ _ _ _ _ _ _ _ _ _ c b _ E)). rewrite T. lra.
Qed.
