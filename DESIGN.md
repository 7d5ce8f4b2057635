# A formal model of pyuoi

The properties are in `properties.jsonl` (C01, C02, ...), the status of each in
`MANIFEST.json`, the Coq development in `rocq/theories/`, and the record of the
wrong-program experiments in `seeded/LOG.jsonl`.

## 1. Method

* Shallow, executable Gallina models of the Python, Cython and C functions,
  branch by branch.  Python exceptions are values (`result A := Ok a | Raise e`).
  Every definition cites the file and lines it models and says where it
  simplifies.
* External code (scikit-learn solvers, numpy random streams, SVD, NMF,
  clustering, the MPI library, user callbacks) enters only as function
  arguments, universally quantified in the theorems.  Whatever is assumed about
  such an argument is a visible hypothesis of the theorem.
* Specifications (`Spec_*.v`) are written without the helpers of the model.
* Theorems live in `Props_*.v`; each is closed by `exact` of a lemma of a
  `Proofs_*.v` file, followed by `Print Assumptions`, and accompanied by an
  `Example` showing that its hypotheses can be met by a non-trivial instance.
* When the code contradicts its documentation, the contradiction is a theorem
  (`..._refuted`, or a universally quantified statement of what the code does
  instead) and is listed in section 5.

### Numbers

* Decision logic on doubles (thresholds, scores, argmax, medians, zero tests,
  NaN propagation) uses binary64 numbers: `spec_float` from the standard
  library (`Coq.Floats.SpecFloat`) at precision 53, exponent bound 1024.  These
  are closed terms, evaluate with `vm_compute`, and need no axioms.
* Code that must be understood both exactly and in floating point (the
  optimizer, the scores) is written once over a record of operations `NumOps`
  and instantiated with the reals and with binary64.
* Statements of analysis (gradients, optimality, convexity, rescaling) are over
  the classical reals of the standard library.

### Concurrency

Ranks are programs that issue collective calls.  `Model_Mpi.v` gives two
semantics: a lock-step one (all ranks perform the n-th collective together) and
an asynchronous one (each rank posts its contribution and leaves a collective
as soon as the data it needs have been posted, any interleaving).  A generic
theorem shows that every asynchronous execution agrees with the lock-step run
and cannot get stuck when the lock-step run succeeds.

## 2. What is modelled, property by property

| property | modelled code (file under `rocq/theories/`) | proof |
|---|---|---|
| C01-C04 | both `stability_selection_to_threshold` on a type of Python values, binary64 product, truncation (`Model_Thresholds`) | case analysis; rounding lemmas from Flocq; witnesses by computation |
| C05-C09 | `intersection` (count, threshold, reshape, squeeze, unique) and the GLM `intersect`, arrays as lists of rows with explicit rank (`Model_Intersection`) | induction on the lists; sorted insertion |
| C10 | `np.array_split` (`Model_Mpi`) | arithmetic, induction |
| C11-C16, C20, C75 | `Bcast_from_root`, `Gatherv_rows`, `load_data_MPI`, `check_valid_ndarray` as rank programs; two semantics (`Model_Mpi`) | simulation between the semantics; symbolic execution of the lock-step semantics for arbitrary size |
| C17-C19, C21-C25, C27, C71-C74, C76, C77 | `AbstractUoILinearModel.fit` as one rank program with the solver, scorer, splitter and intercept refit as arguments (`Model_Fit`) | invariants of the loops; composition with C10-C12 |
| C26, C74 | the estimator object's cached path as state, histories of `fit` (`Model_Refit`) | induction over histories |
| C28-C30 | `AIC`, `BIC`, `AICc`, `log_likelihood_glm`, the three `_score_predictions`, metric and target validation (`Model_Scores`) | real algebra; binary64 witnesses |
| C31-C33, C84 | the `_pre_fit`/`_post_fit` pairs and the standardization inside `Poisson.fit` (`Model_Rescale`, `Model_Poisson`) | real algebra |
| C34-C37, C85 | intercept fits, `softmax`, `sigmoid`, the three loss/gradient functions (`Model_Logistic`, `Model_Poisson`) | real analysis with `derivable_pt_lim`; convexity |
| C38, C54, C55, C91, C94 | `MaskedCoefLogisticRegression.fit` and `_logistic_regression_path`: starts, masks, packing, reshapes, zero callback, the L1 branch on the modelled optimizer, the L2 branch with scipy's optimizer as an argument (`Model_LogisticFit`) | invariants of the optimizer loop; subgradient inequalities |
| C39-C43, C77-C84 | `Poisson.fit`, `_cd`, `_cd_sweep`, `soft_threshold`, `predict`, `predict_mean`, `get_reg_params` (`Model_Poisson`) | exact minimization in one coordinate, induction over sweeps, convexity |
| C27, C92 | `Poisson` with `solver='lbfgs'` on the modelled optimizer, `reset_coef` (`Model_PoissonFit`) | composition with C88; binary64 NaN propagation |
| C44 | `UoI_L1Logistic.get_reg_params` (`Model_Logistic`) | concrete data |
| C45-C53, C86-C90 | `lbfgs.c` main loop, the three line searches, `update_trial_interval`, OWL-QN helpers, parameter checks, `_lowlevel.pyx` callbacks and return codes, `fmin_lbfgs` (`Model_Lbfgs`) | loop invariants for arbitrary objective functions |
| C56-C60, C93 | `column_select`, `UoI_CUR.fit/transform/check_ks_and_cs`, `CUR` (`Model_Cur`) | induction; random draws as arguments |
| C61-C65 | `dissimilarity`, `UoI_NMF_Base.fit/transform/inverse_transform` with the factorization and clustering as arguments (`Model_Nmf`) | real algebra, induction over label lists |
| C66, C67 | `check_logger`, the logger table of Python's `logging`, what `fit` does to the logger (`Model_Logging`) | induction over histories; decimal numerals are injective |
| C68 | `PycLasso` and the selection sweep of `UoI_Lasso(solver='pyc')`, pycasso as an argument (`Model_Pyc`) | induction over histories |
| C69, C95, C96 | the data set generators with the random draws as arguments (`Model_Datasets`) | counting; real algebra |
| C70, C97 | all constructors as maps from arguments to attributes; `get_params`, `set_params`, `clone` of scikit-learn (`Model_Options`) | case analysis over all parameters |
| C98-C100 | class labels and their codes, `classes_`, `predict`, `predict_proba`, `_score_predictions` of `UoI_L1Logistic` with `log_loss` (clipping included), class and sample weights, argument checks of `MaskedCoefLogisticRegression.fit`; `multi_class` 'auto' and 'multinomial' (`Model_Labels`) | sorted insertion; real algebra; composition with C91, C94 and the `fit` of C23 |
| C101, C102 | `get_reg_params` of `UoI_Lasso` and `UoI_ElasticNet` with sklearn's `_alpha_grid`; `_pre_fit` and `_post_fit` around an arbitrary fit (`Model_Linear`) | first order bound on the gain of another model; both fits see the same standardized data |
| C103 | the aggregation step of `fit` (`np_median` in `Model_Fit`), on top of C23 | positions in the sorted estimates; rounding of the mean of the two middle values |
| C104 | `Model_Lbfgs` at `Bnum` (`Num64`): Flocq's binary64 numbers, whose operations are proved equal to those of `F64` | the line searches' acceptance tests under rounding; monotonicity of rounding for sums of magnitudes |
| C105 | `Model_Lbfgs` over the reals: `update_trial_interval` with its interpolation formulas, the rounds of `line_search_morethuente`, the main loop | interpolation is exact on parabolas; a case analysis over the states of the search; the curvature invariant of C87 along the run |
| C106 | `Model_Lbfgs` over the reals, whole runs without an iteration limit; fuel stands for time and is shown to suffice | the two-loop recursion is bounded below and above for pairs with mu \|s\|^2 <= y.s and \|y\| <= M \|s\|; sufficient decrease with the curvature condition gives a fixed gain per step; induction on the fuel |
| C107 | `Model_Lbfgs` over the reals, first search of a run, the objective logging its calls (`Spec_LbfgsBack.see`); one run in binary64 | the interpolating cubic has no minimum, so `cubic_minimizer2` picks the lower end of the interval; the log only grows afterwards |
| C108 | `Model_Logistic.softmax`, `sigmoid`, `expit` and `Model_Labels.predict_proba` in binary64 (`Bnum`); exp and log are parameters with assumed ranges; sklearn's softmax and scipy's expit by their formulas | monotonicity of rounding: sums of at most 2^53 numbers in [0, 1] with one equal to 1 stay between 1 and k, quotients stay in [0, 1] |
| C109 | `Model_Lbfgs.update_trial_interval`, `mt_next`, `mt_round`, the first line search | the formulas of CUBIC_MINIMIZER and QUARD_MINIMIZER solve the stationarity equations of the interpolants (unique by convexity there); invariant of the interval along the trials |
| C110 | the same and `conclude` | concavity makes slopes steeper, so that the search extrapolates by the factor 4 every time; closed form of the steps |
| C111 | `Model_Fit.fit` with `Model_Intersection` (serial; C18 carries it over to ranks), solvers that commute with a permutation of the columns as a relation (`Spec_Columns.follows`) | simulation of the two selection loops; the supports are permuted and sorted again; a unique best score picks the same support; `first_max` plus the lexicographic order for ties |
| C112 | `Model_Nmf.nmf_transform`, `inverse_transform` over the reals; the regressor through the contract `Spec_Cone.least_squares` (optimal non-negative weights whenever it returns; `scipy.optimize.nnls` itself is not modelled) | projection onto a convex cone: variational inequality along segments, orthogonality, non-expansiveness; rows by `mapM` |
| C113 | `Model_Split`: `1 - frac` in binary64 or int, followed by a transcription of scikit-learn's `_validate_shuffle_split` (which samples are drawn, and stratification, are not modelled) | Sterbenz lemma, relative error of the product, integers as fixed points of rounding, ceiling |
| C114 | `Model_Fit`, `Model_Thresholds` as for C27 and C01 (one response, two or more features and parameters; the sweep from `reset` is a function of the training rows) | the bootstraps of the shorter run are a prefix of those of the longer one; counting; C05, C21, C27 |
| C115 | `Model_Classes`: how many coefficients the inner fit returns for the classes in its training rows, numpy's broadcasting in the assignments of `Model_Fit`; class counts of scikit-learn's stratified split | counting distinct codes; provenance of sweeps and estimates (C21, C76); rounding of `c / n * m` |
| C116 | `Model_Poisson`: `cd`, `cd_loop`, `poisson_fit`, `predict_mean` in the reals (null model, lag) and in binary64 with an arbitrary exp (overflow) | closed form of the intercept update; induction over sweeps; infinities and NaN through the sums |
| C117 | `Model_Poisson` in binary64 with an arbitrary exp; `Model_Rescale` for standardize=True | the set {0, -0, NaN} is closed under the operations of the update; 0/0; induction over sweeps |
| C118 | `Model_Lbfgs` over the reals, first search of a run, the objective logging its calls; one run in binary64 | the interpolation formulas solve the Hermite conditions (discriminants are positive in each case); invariant of the two stages; induction over the trials against the relation `Spec_LbfgsRules.follows` |
| C119 | `Model_Estimation` (estimation module with its numbers, generic in the number type) with `Model_Linear.linear_pre` and `linear_post` | zero squared error of the true model on a covering support, R2 is 1 only for exact predictions, affine change of variables for standardization, median of equal values |
| C120 | same; `argmax` and `median` are shown equal to those of `Model_Fit` in binary64 (`Proofs_Estimation4.argmax_same`, `median_same`) | R2 as a ratio of squared errors, first maximum of the scores; a two-factor design for the counterexample |
| C121 | `Model_Estimation`, `Model_Scores` (real numbers, standardize=False) | the score is a decreasing function of the squared error ('r2') or of n ln(error) + price of the features; maximum of the scores, median as the middle of a sorted permutation |
| C122 | same | embedding of the smaller model into the larger one; two best models agree by the parallelogram identity |
| C123 | `Model_Selection` (selection module with its numbers; its supports are those of `Model_Intersection`, lemma `selection_same`), `Model_Linear`, `Model_Estimation` (real numbers, standardize=False) | the objectives of the two units differ by a factor s^2 for the penalty abs(s)*lambda; scores shift by a constant; medians commute with a factor of either sign. Finding: the four elastic-net problems of one data set solved by hand |
| C124 | `Model_Selection`, `Model_Linear`, `Model_Estimation`, `Model_CountFit`, `Model_ClassFit` (real numbers) | setting the coefficient of a flat feature to 0 and moving its value into the intercept leaves the errors and lowers the penalty; counts below the threshold; estimates vanish outside the supports and so do medians |
| C125 | `Model_CountFit`, `Model_Selection`, `Model_Poisson`, `Model_Scores` (real numbers) | the objective in the new units is s times the old one plus a constant after moving ln s into the intercept, so minimizers correspond; the penalty grid scales by s; log scores change by an increasing affine map; closed-form minimizers of a crossed design for the example and the counterexample |
| C126 | `Model_Estimation`, `Model_CountFit`, `Model_ClassFit`, `Model_Rescale` (real numbers) | the intercept is recomputed from the aggregated coefficients on all data; the change of units of the features leaves every linear predictor as it is |
| C127 | `Model_CountFit`, `Model_Scores` (real numbers) | each score is minus the cost of the specification; `argmax` attains the largest one; medians |
| C128 | `Model_ClassFit`, `Model_Logistic`, `Model_Labels` (real numbers) | ln(1 + e^-t) = ln(1 + e^t) - t turns minimizers for one coding into negated minimizers for the other; accuracies of opposite predictions agree; monotone sum of sigmoids for the intercept; a tangent bound on the logistic loss for the two examples |
| C129 | `Model_ClassFit`, `Model_Labels`, `Model_Scores` (real numbers) | scores equal minus the costs of the specification; `argmax` returns the first maximum; supports are sorted, so the empty one comes first; more than half equal entries fix a median |
| C130 | `Model_Linear`, `Model_Selection`, `Model_Estimation`, `Model_CountFit`, `Model_ClassFit`, `Model_Labels` (real numbers) | sums, means, scales, maxima and the sorted list of classes are invariant under permutations; rows taken with new numbers equal rows taken with old ones; an exact refit of the intercept is unique |
| C131 | `Model_Linear`, `Model_Selection`, `Model_Estimation`, `Model_CountFit`, `Model_ClassFit`, `Model_Logistic` (real numbers) | the objectives of displaced data are those of the original data with another intercept; the grids of the linear and count models are centred; for the classes, a tangent of the loss at the model without features bounds the objective from below |
| C132 | `Model_Linear`, `Model_Selection`, `Model_Estimation`, `Model_CountFit` (real numbers) | moving weight between the copies keeps the predictions; the ridge part is smaller at the average; a solver that prefers one copy in one bootstrap and the other copy in the others |
| C133 | `Model_Linear`, `Model_Selection`, `Model_Estimation`, `Model_CountFit`, objective of `Spec_ClassFit` (real numbers) | the model half way between two minimizers is better unless fitted values (and, with a ridge part, coefficients) agree |

Each model file starts with a comment saying what it leaves out; each definition
cites the lines it transcribes.

## 3. Trusted base

* Coq 8.16.1's kernel (and `vm_compute`).
* The axioms listed in section 4.
* The reading of the code: the models are transcriptions, not extracted from
  the source, and the code was not run.
* Numpy, scikit-learn, scipy, mpi4py, pycasso and libc behave as recorded in the
  comments of the model.  In particular: `np.argmax` returns the first NaN if
  there is one; `np.unique(axis=0)` sorts lexicographically; `squeeze` drops
  axes of length one; `np.median`, `np.mean`, `np.var` are what their
  documentation says; MPI collectives match in program order and deliver what
  was sent; a Cython `noexcept` callback that raises returns 0 after printing.
* Sums: where the reals are used, the order of summation and rounding do not
  matter; in binary64 statements sums are folds in a fixed order, while numpy
  uses pairwise summation and BLAS.  Theorems quantified over all binary64
  inputs only use facts that are independent of the order (NaN and zero
  propagation, comparisons).
  C104 does use the order: its sums are the loops of `lbfgs.c` and
  `arithmetic_ansi.h`, every operation rounded once to binary64, as compiled
  without `-ffast-math` and without contraction to fused multiply-add.
* `exp` and `log` of libm are parameters of the binary64 instances; theorems
  that need more say so in a hypothesis (for example `exp64 fnan = fnan`).

## 4. Axioms

Only axioms of the standard library appear: the classical reals
(`ClassicalDedekindReals.sig_forall_dec`, `sig_not_dec`), excluded middle
(`Classical_Prop.classic`, which enters through the reals' analysis and Flocq)
and `functional_extensionality_dep`.  The lists below are what
`Print Assumptions` prints for the theorems of `MANIFEST.json`, produced by
`tools/axioms.py`.

<!-- axioms -->
**No axioms (closed under the global context)** (164 theorems): C01_bounds, C04_no_model, C04_serial_raises, C05_supports_exact, C06_bootstrap_order, C06_zero_pattern, C07_monotone, C07_hard_intersection, C07_threshold_one, C08_single_combination, C08_single_coefficient, C08_single_both, C09_shared_union, C09_not_shared, C10_partition, C10_each_task_once, C10_balanced, C11_gatherv_rows, C12_bcast_from_root, C12_unsupported_dtype, C12_root_sends_none, C13_root_array_ignored, C13_nonzero_root_raises, C13_nonzero_root_garbage, C14_nonzero_root, C15_load_data, C15_read_error, C16_fit, C16_schedule_independent, C16_any_synchronization, C17_identical, C18_few_ranks, C18_any_ranks, C19_warm_start_refuted, C20_no_model_after_raise, C20_others_hang, C21_stable, C22_estimates_vanish, C23_best_support, C24_nan_wins, C25_constant, C26_lasso_forgets, C26_pairs_stale, C26_logistic_stale, C26_failed_path_is_zero, C27_own_rows, C27_contaminated, C29_linear_lowest, C29_logistic_lowest, C29_poisson_lowest, C29_linear_arguments, C29_glm_arguments, C29_poisson_acc_never_scores, C30_zero_gives_nan, C30_all_zero, C31_keeps_zeros, C38_l2_binary, C38_l2_multi, C38_floats, C40_history_binary64, C41_zero_stays_binary64, C42_never_fitted, C42_stale_intercept, C42_estimation_raises, C46_calls, C46_search, C49_memory_zero, C50_recursion, C52_callback, C53_wolfe, C53_negative, C53_unknown, C55_binary, C55_single, C55_multi, C55_multi_zero, C56_union_any, C56_transform, C56_transform_errors, C56_raise, C57_nan, C58_returns, C58_raises, C60_empty_components, C62_nan, C64_construction, C64_not_fitted, C65_columns, C66_repeated, C66_streams, C66_quiet, C66_level, C66_messages, C67_names, C67_rounding, C67_serial, C67_families, C68_predict, C68_fit, C68_construction, C68_set_params, C68_unknown_name, C68_sweep_forgets, C68_reset, C69_counts, C70_ignored, C70_attributes, C70_nmf_attributes, C70_poisson, C70_acc_accepted, C70_acc_raises, C70_acc_never_fits, C70_lasso_solver, C70_pyc_errors, C70_unknown_solver, C71_numpy_seed, C71_python_int, C72_single_coefficient, C73_single_candidate, C74_constant_refit, C74_constant_only, C75_bcast_not_array, C75_gatherv_not_array, C76_estimates, C77_single_feature, C80_fit_forgets, C80_other_solver, C81_zero_counts, C81_zero_counts_intercept, C86_zero, C86_progress, C89_unpenalized_worse, C90_nan_forever, C90_nan_rejected, C92_max_iter, C96_single_sample, C96_seed, C97_broken, C97_works, C97_unknown, C98_right_names, C98_exchanged, C98_two_classes, C98_many_classes, C98_fit, C99_codes, C99_rows, C99_renaming, C100_checks, C103_nan_estimate, C107_fails, C111_order, C111_ties, C111_order_refuted, C112_rows, C113_integer, C114_counts, C114_half_refuted, C115_selection, C115_estimation, C116_overflow, C117_zero_column, C117_predictions, C118_gives_up64.

**`sig_forall_dec`, `functional_extensionality_dep`** (2 theorems): C57_expected, C133_values.

**`sig_forall_dec`, `sig_not_dec`, `classic`, `functional_extensionality_dep`** (254 theorems): C01_accepted_iff, C01_cur_accepted_iff, C02_one_is_all, C02_cur_one_is_all, C02_unit_accepted, C02_monotone, C03_proportion_refuted, C03_proportion_rejected_refuted, C25_predicts_constant, C27_reset_like_new, C28_bic_penalizes, C28_aic_penalizes, C28_aicc_aic, C28_aicc_penalizes, C28_aicc_drops, C28_likelihood, C30_saturated, C30_maximal, C30_normal_profile, C30_normal_order, C31_linear, C31_transform, C31_poisson, C32_difference, C32_agreement, C33_agreement, C34_linear_residuals, C34_linear_best, C34_poisson_totals, C34_poisson_best, C35_binary, C35_multi, C36_softmax, C36_sigmoid, C37_logistic_loss, C37_logistic_gradient, C37_logistic_masked, C37_multinomial_loss, C37_multinomial_gradient, C37_multinomial_masked, C37_poisson_loss, C37_poisson_gradient, C38_binary, C38_multi, C39_working, C39_sweep_descends, C39_coordinate, C39_soft_threshold, C40_warm_fit_selects_nothing, C40_history, C41_zero_stays, C41_loses_optimum, C43_lambda_max, C43_null_optimal, C43_null_not_optimal, C43_grid, C43_all_pairs, C44_null_model, C44_alpha_max, C44_grid, C44_first_C, C44_no_intercept, C44_multi, C45_iterates_decrease, C45_never_worse, C47_accepted, C48_steps, C48_least_subgradient, C48_zero_iff_optimal, C48_trial_points, C48_stationary_minimizes, C49_invalid_rejected, C49_valid_called, C49_memory_negative, C51_descent, C51_secant, C52_delta, C54_stays_zero, C56_union, C56_returns, C57_drawn, C57_extremes, C57_order, C59_same_bootstraps, C59_not_reproducible, C60_reachable, C61_value, C61_bounds, C61_symmetric, C61_zero_iff, C62_rank, C62_all_ranks, C63_clusters, C63_mean, C63_returns, C64_no_ranks, C64_negative, C64_noise, C64_labels, C64_truncated, C65_product, C65_linear, C65_transform, C65_best, C68_value, C69_linear, C69_poisson, C69_classification, C69_any_set, C70_poisson_standardizes, C78_fixed_point_optimal, C79_lbfgs_target, C81_constant_predicted, C82_stopping_rule, C83_predict_mode, C84_standardized_fit, C85_binary, C85_multi_gradient, C85_multi_stationary, C86_objective, C87_curved_steps, C87_no_internal_error, C88_stationary, C88_gap, C91_binary, C91_multi, C92_lbfgs_gap, C93_plain_cur, C95_linear, C95_poisson, C95_binary, C95_multi, C96_rows, C96_single_feature, C94_binary, C94_multi, C94_binary_all_masked, C94_multi_all_masked, C98_score, C98_accuracy, C99_probabilities, C99_predict, C99_masked_predict, C100_weights, C100_balanced, C100_l1_two, C100_l1_several, C100_l2_two, C100_l2_several, C101_largest, C101_null_minimizer, C101_nothing_above, C101_lasso_grid, C101_single_penalty, C101_flat_grid, C101_elastic_grid, C101_no_ridge, C101_standardized, C102_linear, C102_same_penalties, C102_poisson, C102_logistic, C102_logistic_no_intercept, C103_majority, C103_signs, C103_agreement, C104_same_arithmetic, C104_descends, C104_never_worse, C104_plain, C105_steps, C105_gives_up, C106_rate, C106_gain, C106_iterations, C106_terminates, C106_accuracy, C107_turns_back, C108_softmax, C108_any_order, C108_infinite, C108_sigmoid, C108_predict_proba, C109_trials, C109_next, C109_count, C110_unbounded, C110_default, C112_fixed, C112_recovers, C112_pythagoras, C112_nonexpansive, C112_unique, C112_scaled, C113_half, C113_any, C113_refused, C113_default, C113_seven_tenths_refuted, C113_cur, C114_all, C114_never_again, C115_stratified, C115_proportional, C116_null, C116_null_standardized, C116_lag, C116_lag_standardized, C118_trials, C118_defined, C118_inside, C118_gives_up, C119_recovers, C120_zero_model, C120_worse, C121_choice, C122_nested, C122_train, C123_lasso, C123_elastic, C124_lasso, C124_elastic, C124_poisson, C124_logistic, C125_units, C125_criteria, C126_classes, C126_standardized, C126_residuals, C126_counts, C127_choice, C128_swap, C128_intercept, C128_penalties, C128_ties, C129_choice, C129_majority, C129_constant, C129_no_intercept, C130_lasso, C130_elastic, C130_poisson, C130_logistic, C131_lasso, C131_elastic, C131_poisson, C131_logistic, C132_elastic, C132_lasso, C132_poisson, C133_count_values, C133_class_values, C133_elastic, C133_poisson.
<!-- /axioms -->

## 5. Findings

Behaviour that contradicts the documentation or an evident intention, each with
the theorem or property that states it.

1. A fractional `stability_selection` is multiplied and truncated in binary64,
   so 0.29 of 100 bootstraps means 28 (C03); an empty list is accepted and
   breaks `fit` (C04).
2. Degenerate shapes lose the support mask or make fits fail: one threshold and
   one penalty, a single feature, a single candidate support (C08, C72, C73,
   C77).
3. `Bcast_from_root` and `Gatherv_rows` do not honour `root` (C13, C14); an
   exception on one rank leaves the others waiting for ever (C20).
4. With more ranks than bootstraps, warm starting makes the result depend on
   the number of ranks (C19).
5. A NaN score is the maximum (C24); a Poisson log-likelihood is NaN for a zero
   prediction of a zero count (C30).
6. `UoI_ElasticNet`, `UoI_Poisson` and `UoI_L1Logistic` reuse the penalties of
   the first data set they were fitted to (C26); a constant response keeps old
   supports and estimates (C74).
7. `Poisson.reset_coef` multiplies by zero, so an infinite intercept becomes NaN
   and contaminates all later fits (C27).
8. After standardization `UoI_L1Logistic` predicts with a wrong intercept (C32),
   `MaskedCoefLogisticRegression(standardize=True)` ignores the means (C33),
   `UoI_Poisson` without intercept keeps the shift (C31).
9. Poisson coordinate descent cannot revive a zero coefficient (C40, C41);
   without intercept `predict` fails (C42).
10. The penalty grid of `UoI_L1Logistic` does not start at the all-zero model
    (C44).
11. The optimizer: `m` is not validated (C49); stopping by `delta` raises
    KeyError (C52); a requested line search is replaced silently or with a
    warning for L1 problems (C53); exceptions of the callables are swallowed
    (C86); unpenalized variables can make OWL-QN return a worse point (C89);
    backtracking accepts NaN and may then never end (C90); with a penalty a
    coordinate below about 2^-530 can make it accept a larger value (C104).
12. L1 logistic regression without intercept ignores the last feature in its
    all-zero test; with a single feature it returns 0 whenever it takes two
    iterations (C55).  The multiclass start overwrites the last feature with the
    null model's intercepts when there is no intercept; with every coefficient
    masked nothing is optimized, the binary intercept stays where it started
    (C94).
13. `column_select` ignores its random state; an integer seed gives identical
    bootstraps (C59, C71); NaN leverage scores are always selected (C57); an
    empty selection gives `components_` of shape (1, 0) (C60).
14. `UoI_NMF_Base`: `ranks=None` leaves no attribute `ranks`, a failing `fit`
    has already replaced `dissimilarity_`, integer data are truncated, labels
    below -1 wrap around silently (C62, C64).
15. `check_logger` adds a handler per call, messages are repeated; `fit` changes
    the level of the user's logger (C66).
16. `PycLasso.set_params` accepts `fit_intercept=False`, rejects `tol` after
    having assigned other values (C68).
17. Options without effect, late failures (C70); `get_params`, `clone` and
    `set_params` of six estimators raise AttributeError (C97).
18. `make_classification` standardizes samples instead of features (C96);
    negative `n_informative` counts from the end (C69).
19. `UoI_L1Logistic` scores codes against the original class names: likelihood
    scores are wrong unless the names are 0, ..., k-1 (C98).
    `MaskedCoefLogisticRegression.predict` returns codes (C99), its
    `class_weight` dictionaries are looked up by codes, and with two classes
    other values are ignored (C100).
20. The decisions of `UoI_L1Logistic(standardize=True)` depend on the units of the
    features, and so do the predictions of `UoI_Poisson(standardize=True,
    fit_intercept=False)` (C102).  With `n_lambdas=1` the linear models try the
    smallest penalty of the grid instead of the largest (C101).
21. One NaN among the estimates of a coefficient makes the coefficient NaN, and an
    even number of equal estimates of at least 2^1023 makes it infinite (C103).
22. The macro CUBIC_MINIMIZER2 chooses between the ends of the interval by the sign of
    a coefficient, not by the direction of the step.  On an objective that flattens
    out, the default line search goes back to min_step instead of on, and with gtol
    below 1/2 the call can then fail with NaN trials (C107).
23. A score of +inf turns all probabilities of `softmax` into NaN (C108).
24. For an objective without a lower bound, such as a linear one, `fmin_lbfgs` with default
    options returns the starting point with a warning, not an error (C110).
25. Supports with equal scores are ranked by the order of the columns of X: the
    candidate that leaves out the first differing feature wins, so interchangeable
    features are represented by the last one (C111).
26. `selection_frac=0.7` trains on 7 m - 1 of 10 m samples; an int `selection_frac`
    counts left-out samples (0 leaves out one); invalid fractions are only noticed by
    `fit` (C113).
27. With `stability_selection=0.5` the same data and seed can give disjoint supports for
    `n_boots_sel=2` and `n_boots_sel=4`; with 1.0 the supports shrink, with an integer they
    grow (C114).
28. In `UoI_L1Logistic`, an estimation bootstrap with only two of three or more classes and
    a support of one feature stores one coefficient for all classes; every other missing
    class raises ValueError (C115).

29. `Poisson(solver='cd')` looks only at the coefficients to decide that it has converged. A fit in
    which the penalty removes every feature stops after one sweep with intercept `mean(y) - 1`
    instead of `log(mean(y))`; predictions are `exp(mean(y) - 1)` (C116).
30. `Poisson(solver='cd', l1_ratio=1)` divides zero by zero for a feature that is zero in every
    sample and returns NaN everywhere without an exception (C117).
31. The default line search decides by the sign of a coefficient, not by the direction of search,
    which end of the interval to take when the interpolating cubic has no minimum. Within a
    bracket this leads back to a step already given up; the search stops and `fmin_lbfgs` returns
    x0 with the warning "rounding error", though a lower point has been evaluated (C118).

32. With `fit_intercept=False` the support without features is scored with the mean of the
    training response as its prediction (`LinearInterceptFitterNoFeatures`), while the model
    that is returned for it predicts 0.  For a response with a large mean it beats every
    real candidate, and fit returns the zero model (C120).
33. `estimation_score='r2'` with `estimation_target='train'` is accepted, but then the largest
    candidate support always wins: the estimation module rejects no feature (C122).

34. `UoI_ElasticNet(standardize=False)` selects different features when the response is measured in
    another unit: the penalties of its grid are proportional to the unit, which is right for the
    absolute values but not for the squares of the penalty (C123; `UoI_Lasso` is not affected).

35. (C125) UoI_Poisson with an information criterion is not equivariant to the unit of the
    response: the likelihood scales with it and the price of a parameter does not, and the
    intercept is counted as a parameter only if it is not exactly 0, i.e. unless the mean
    count in the reference cell (or of all training samples, for the empty support) is 1
    (poisson.py:594-596).

36. (C128) `UoI_L1Logistic` treats its two classes differently. `get_reg_params` passes
    codes 0 and 1 to a function for -1 and 1, so only the samples of the second class enter the
    gradient, and for centered features the whole list of penalties is multiplied by the odds of
    the classes when the labels are exchanged (logistic.py:153-179).
37. (C128) When a training set is split exactly in half, the model without features predicts
    the class that sorts last (logistic.py:248-286); exchanging the labels can then change
    which support wins.

38. (C129) With the default `estimation_score='acc'`, ties are broken in favour of the
    lexicographically first support, so the empty one. For unbalanced classes, where predicting
    the larger class is hard to beat, `coef_` is zero although features are informative
    (base.py:401-412).

39. (C126) `UoI_L1Logistic(standardize=True)` publishes an intercept that is too large by
    the sum of mean * coef * (scale + 1) over the features: `_post_fit` adds mean * scale * coef
    where mean * coef has to be subtracted (base.py:717-722). The fitted probabilities on the
    training data then do not add up to the number of samples of the second class.

40. (C131) `UoI_L1Logistic(standardize=False)` depends on the zero points of the features, although the
    penalized models with an intercept do not: `get_reg_params` (logistic.py:153-179) computes the
    largest penalty from the features as they are. For features far from 0 compared to their range
    (Unix times within one hour, with the default `eps=1e-5`) all penalties of the grid are so large
    that every support is empty and `coef_` is zero, even for a feature that separates the classes
    (C131). `standardize=True` avoids it.

41. With two equal features the result of `UoI_Lasso` is not determined by the penalized problems it
    solves: exact solvers exist for which the intersection (base.py:222-330) removes both copies
    although the response follows them (C132). This says nothing about a particular solver:
    scikit-learn's coordinate descent visits the features in a fixed order. `UoI_ElasticNet` and
    `UoI_Poisson` with `alphas` below 1 treat both alike, whatever exact solver is used.

## 6. Not modelled

* Third-party numerics: coordinate descent of scikit-learn, scipy's
  `fmin_l_bfgs_b`, SVD, NMF, clustering, non-negative least squares, pycasso,
  pseudo-random generators.  They are arguments of the theorems.
* Rounding inside sums and solvers where a theorem is stated over the reals
  (the statement says so by its type).
* Sparse matrices, dtype promotion beyond what a property mentions, memory
  layout and aliasing except where the code depends on it (the optimizer's
  buffers, `reshape` views in the logistic objective).
* `load_swimmer` and HDF5 reading beyond "rank `root` has the array"; plotting
  and documentation; wall-clock behaviour; formatting of log records.
* `sklearn.metrics` (accuracy, log loss, r2) is represented by its formulas;
  `Model_Labels` includes the clipping inside `log_loss`, `Model_Scores` does
  not.
* Labels that are neither integers nor strings (`multi_class='ovr'` is rejected by
  the constructor of `MaskedCoefLogisticRegression`).
* Overflow of C ints, failing malloc, signals, threads.
* Interaction of properties through Python features such as subclassing by the
  user, pickling, or assignment to private attributes.
