{"claims": [
 {"property": "C01", "status": "proved", "theorems": ["C01_accepted_iff", "C01_bounds", "C01_cur_accepted_iff"], "note": ""},
 {"property": "C02", "status": "proved", "theorems": ["C02_one_is_all", "C02_cur_one_is_all", "C02_unit_accepted", "C02_monotone"], "note": ""},
 {"property": "C03", "status": "proved", "theorems": ["C03_proportion_refuted", "C03_proportion_rejected_refuted"], "note": "finding"},
 {"property": "C04", "status": "proved", "theorems": ["C04_no_model", "C04_serial_raises"], "note": "finding"},
 {"property": "C05", "status": "proved", "theorems": ["C05_supports_exact"], "note": ""},
 {"property": "C06", "status": "proved", "theorems": ["C06_bootstrap_order", "C06_zero_pattern"], "note": ""},
 {"property": "C07", "status": "proved", "theorems": ["C07_monotone", "C07_hard_intersection", "C07_threshold_one"], "note": ""},
 {"property": "C08", "status": "proved", "theorems": ["C08_single_combination", "C08_single_coefficient", "C08_single_both"], "note": "finding"},
 {"property": "C09", "status": "proved", "theorems": ["C09_shared_union", "C09_not_shared"], "note": ""},
 {"property": "C10", "status": "proved", "theorems": ["C10_partition", "C10_each_task_once", "C10_balanced"], "note": ""},
 {"property": "C11", "status": "proved", "theorems": ["C11_gatherv_rows"], "note": ""},
 {"property": "C12", "status": "proved", "theorems": ["C12_bcast_from_root", "C12_unsupported_dtype", "C12_root_sends_none"], "note": ""},
 {"property": "C13", "status": "proved", "theorems": ["C13_root_array_ignored", "C13_nonzero_root_raises", "C13_nonzero_root_garbage"], "note": "finding"},
 {"property": "C14", "status": "proved", "theorems": ["C14_nonzero_root"], "note": "finding"},
 {"property": "C15", "status": "proved", "theorems": ["C15_load_data", "C15_read_error"], "note": ""},
 {"property": "C16", "status": "proved", "theorems": ["C16_fit", "C16_schedule_independent", "C16_any_synchronization"], "note": ""},
 {"property": "C17", "status": "proved", "theorems": ["C17_identical"], "note": ""},
 {"property": "C18", "status": "proved", "theorems": ["C18_few_ranks", "C18_any_ranks"], "note": ""},
 {"property": "C19", "status": "proved", "theorems": ["C19_warm_start_refuted"], "note": "finding"},
 {"property": "C20", "status": "proved", "theorems": ["C20_no_model_after_raise", "C20_others_hang"], "note": "finding"},
 {"property": "C21", "status": "proved", "theorems": ["C21_stable"], "note": ""},
 {"property": "C22", "status": "proved", "theorems": ["C22_estimates_vanish"], "note": ""},
 {"property": "C23", "status": "proved", "theorems": ["C23_best_support"], "note": ""},
 {"property": "C24", "status": "proved", "theorems": ["C24_nan_wins"], "note": "finding"},
 {"property": "C25", "status": "proved", "theorems": ["C25_constant", "C25_predicts_constant"], "note": ""},
 {"property": "C26", "status": "proved", "theorems": ["C26_lasso_forgets", "C26_pairs_stale", "C26_logistic_stale", "C26_failed_path_is_zero"], "note": "finding"},
 {"property": "C27", "status": "proved", "theorems": ["C27_own_rows", "C27_reset_like_new", "C27_contaminated"], "note": ""},
 {"property": "C28", "status": "proved", "theorems": ["C28_bic_penalizes", "C28_aic_penalizes", "C28_aicc_aic", "C28_aicc_penalizes", "C28_aicc_drops", "C28_likelihood"], "note": ""},
 {"property": "C29", "status": "proved", "theorems": ["C29_linear_lowest", "C29_logistic_lowest", "C29_poisson_lowest", "C29_linear_arguments", "C29_glm_arguments", "C29_poisson_acc_never_scores"], "note": ""},
 {"property": "C30", "status": "proved", "theorems": ["C30_saturated", "C30_maximal", "C30_zero_gives_nan", "C30_all_zero", "C30_normal_profile", "C30_normal_order"], "note": "finding"},
 {"property": "C31", "status": "proved", "theorems": ["C31_linear", "C31_transform", "C31_poisson", "C31_keeps_zeros"], "note": ""},
 {"property": "C32", "status": "proved", "theorems": ["C32_difference", "C32_agreement"], "note": "finding"},
 {"property": "C33", "status": "proved", "theorems": ["C33_agreement"], "note": "finding"},
 {"property": "C34", "status": "proved", "theorems": ["C34_linear_residuals", "C34_linear_best", "C34_poisson_totals", "C34_poisson_best"], "note": ""},
 {"property": "C35", "status": "proved", "theorems": ["C35_binary", "C35_multi"], "note": ""},
 {"property": "C36", "status": "proved", "theorems": ["C36_softmax", "C36_sigmoid"], "note": ""},
 {"property": "C37", "status": "proved", "theorems": ["C37_logistic_loss", "C37_logistic_gradient", "C37_logistic_masked", "C37_multinomial_loss", "C37_multinomial_gradient", "C37_multinomial_masked", "C37_poisson_loss", "C37_poisson_gradient"], "note": ""},
 {"property": "C38", "status": "proved", "theorems": ["C38_l2_binary", "C38_l2_multi", "C38_binary", "C38_multi", "C38_floats"], "note": ""},
 {"property": "C39", "status": "proved", "theorems": ["C39_working", "C39_sweep_descends", "C39_coordinate", "C39_soft_threshold"], "note": ""},
 {"property": "C40", "status": "proved", "theorems": ["C40_warm_fit_selects_nothing", "C40_history", "C40_history_binary64"], "note": "finding"},
 {"property": "C41", "status": "proved", "theorems": ["C41_zero_stays", "C41_zero_stays_binary64", "C41_loses_optimum"], "note": "finding"},
 {"property": "C42", "status": "proved", "theorems": ["C42_never_fitted", "C42_stale_intercept", "C42_estimation_raises"], "note": "finding"},
 {"property": "C43", "status": "proved", "theorems": ["C43_lambda_max", "C43_null_optimal", "C43_null_not_optimal", "C43_grid", "C43_all_pairs"], "note": ""},
 {"property": "C44", "status": "proved", "theorems": ["C44_null_model", "C44_alpha_max", "C44_grid", "C44_first_C", "C44_no_intercept", "C44_multi"], "note": "finding"},
 {"property": "C45", "status": "proved", "theorems": ["C45_iterates_decrease", "C45_never_worse"], "note": ""},
 {"property": "C46", "status": "proved", "theorems": ["C46_calls", "C46_search"], "note": ""},
 {"property": "C47", "status": "proved", "theorems": ["C47_accepted"], "note": ""},
 {"property": "C48", "status": "proved", "theorems": ["C48_steps", "C48_least_subgradient", "C48_zero_iff_optimal", "C48_trial_points", "C48_stationary_minimizes"], "note": ""},
 {"property": "C49", "status": "proved", "theorems": ["C49_invalid_rejected", "C49_valid_called", "C49_memory_negative", "C49_memory_zero"], "note": "finding"},
 {"property": "C50", "status": "proved", "theorems": ["C50_recursion"], "note": ""},
 {"property": "C51", "status": "proved", "theorems": ["C51_descent", "C51_secant"], "note": ""},
 {"property": "C52", "status": "proved", "theorems": ["C52_delta", "C52_callback"], "note": "finding"},
 {"property": "C53", "status": "proved", "theorems": ["C53_wolfe", "C53_negative", "C53_unknown"], "note": "finding"},
 {"property": "C54", "status": "proved", "theorems": ["C54_stays_zero"], "note": ""},
 {"property": "C55", "status": "proved", "theorems": ["C55_binary", "C55_single", "C55_multi", "C55_multi_zero"], "note": "finding"},
 {"property": "C56", "status": "proved", "theorems": ["C56_union", "C56_returns", "C56_union_any", "C56_transform", "C56_transform_errors", "C56_raise"], "note": ""},
 {"property": "C57", "status": "proved", "theorems": ["C57_drawn", "C57_extremes", "C57_order", "C57_expected", "C57_nan"], "note": ""},
 {"property": "C58", "status": "proved", "theorems": ["C58_returns", "C58_raises"], "note": ""},
 {"property": "C59", "status": "proved", "theorems": ["C59_same_bootstraps", "C59_not_reproducible"], "note": "finding"},
 {"property": "C60", "status": "proved", "theorems": ["C60_empty_components", "C60_reachable"], "note": "finding"},
 {"property": "C61", "status": "proved", "theorems": ["C61_value", "C61_bounds", "C61_symmetric", "C61_zero_iff"], "note": ""},
 {"property": "C62", "status": "proved", "theorems": ["C62_rank", "C62_all_ranks", "C62_nan"], "note": ""},
 {"property": "C63", "status": "proved", "theorems": ["C63_clusters", "C63_mean", "C63_returns"], "note": ""},
 {"property": "C64", "status": "proved", "theorems": ["C64_no_ranks", "C64_construction", "C64_not_fitted", "C64_negative", "C64_noise", "C64_labels", "C64_truncated"], "note": "finding"},
 {"property": "C65", "status": "proved", "theorems": ["C65_columns", "C65_product", "C65_linear", "C65_transform", "C65_best"], "note": ""},
 {"property": "C66", "status": "proved", "theorems": ["C66_repeated", "C66_streams", "C66_quiet", "C66_level", "C66_messages"], "note": "finding"},
 {"property": "C67", "status": "proved", "theorems": ["C67_names", "C67_rounding", "C67_serial", "C67_families"], "note": ""},
 {"property": "C68", "status": "proved", "theorems": ["C68_predict", "C68_value", "C68_fit", "C68_construction", "C68_set_params", "C68_unknown_name", "C68_sweep_forgets", "C68_reset"], "note": ""},
 {"property": "C69", "status": "proved", "theorems": ["C69_linear", "C69_poisson", "C69_classification", "C69_any_set", "C69_counts"], "note": ""},
 {"property": "C70", "status": "proved", "theorems": ["C70_ignored", "C70_attributes", "C70_nmf_attributes", "C70_poisson", "C70_poisson_standardizes", "C70_acc_accepted", "C70_acc_raises", "C70_acc_never_fits", "C70_lasso_solver", "C70_pyc_errors", "C70_unknown_solver"], "note": "finding"},
 {"property": "C71", "status": "proved", "theorems": ["C71_numpy_seed", "C71_python_int"], "note": "finding"},
 {"property": "C72", "status": "proved", "theorems": ["C72_single_coefficient"], "note": "finding"},
 {"property": "C73", "status": "proved", "theorems": ["C73_single_candidate"], "note": "finding"},
 {"property": "C74", "status": "proved", "theorems": ["C74_constant_refit", "C74_constant_only"], "note": "finding"},
 {"property": "C75", "status": "proved", "theorems": ["C75_bcast_not_array", "C75_gatherv_not_array"], "note": ""},
 {"property": "C76", "status": "proved", "theorems": ["C76_estimates"], "note": ""},
 {"property": "C77", "status": "proved", "theorems": ["C77_single_feature"], "note": "finding"},
 {"property": "C78", "status": "proved", "theorems": ["C78_fixed_point_optimal"], "note": ""},
 {"property": "C79", "status": "proved", "theorems": ["C79_lbfgs_target"], "note": ""},
 {"property": "C80", "status": "proved", "theorems": ["C80_fit_forgets", "C80_other_solver"], "note": ""},
 {"property": "C81", "status": "proved", "theorems": ["C81_constant_predicted", "C81_zero_counts", "C81_zero_counts_intercept"], "note": ""},
 {"property": "C82", "status": "proved", "theorems": ["C82_stopping_rule"], "note": ""},
 {"property": "C83", "status": "proved", "theorems": ["C83_predict_mode"], "note": ""},
 {"property": "C84", "status": "proved", "theorems": ["C84_standardized_fit"], "note": ""},
 {"property": "C85", "status": "proved", "theorems": ["C85_binary", "C85_multi_gradient", "C85_multi_stationary"], "note": ""},
 {"property": "C86", "status": "proved", "theorems": ["C86_objective", "C86_zero", "C86_progress"], "note": "finding"},
 {"property": "C87", "status": "proved", "theorems": ["C87_curved_steps", "C87_no_internal_error"], "note": ""},
 {"property": "C88", "status": "proved", "theorems": ["C88_stationary", "C88_gap"], "note": ""},
 {"property": "C89", "status": "proved", "theorems": ["C89_unpenalized_worse"], "note": "finding"},
 {"property": "C90", "status": "proved", "theorems": ["C90_nan_forever", "C90_nan_rejected"], "note": "finding"},
 {"property": "C91", "status": "proved", "theorems": ["C91_binary", "C91_multi"], "note": ""},
 {"property": "C92", "status": "proved", "theorems": ["C92_lbfgs_gap", "C92_max_iter"], "note": ""},
 {"property": "C93", "status": "proved", "theorems": ["C93_plain_cur"], "note": ""},
 {"property": "C95", "status": "proved", "theorems": ["C95_linear", "C95_poisson", "C95_binary", "C95_multi"], "note": ""},
 {"property": "C96", "status": "proved", "theorems": ["C96_rows", "C96_single_feature", "C96_single_sample", "C96_seed"], "note": "finding"},
 {"property": "C97", "status": "proved", "theorems": ["C97_broken", "C97_works", "C97_unknown"], "note": "finding"},
 {"property": "C94", "status": "proved", "theorems": ["C94_binary", "C94_multi", "C94_binary_all_masked", "C94_multi_all_masked"], "note": ""},
 {"property": "C98", "status": "proved", "theorems": ["C98_score", "C98_right_names", "C98_exchanged", "C98_two_classes", "C98_many_classes", "C98_fit", "C98_accuracy"], "note": "finding"},
 {"property": "C99", "status": "proved", "theorems": ["C99_codes", "C99_rows", "C99_probabilities", "C99_predict", "C99_masked_predict", "C99_renaming"], "note": "finding"},
 {"property": "C100", "status": "proved", "theorems": ["C100_weights", "C100_balanced", "C100_checks", "C100_l1_two", "C100_l1_several", "C100_l2_two", "C100_l2_several"], "note": "finding"},
 {"property": "C101", "status": "proved", "theorems": ["C101_largest", "C101_null_minimizer", "C101_nothing_above", "C101_lasso_grid", "C101_single_penalty", "C101_flat_grid", "C101_elastic_grid", "C101_no_ridge", "C101_standardized"], "note": ""},
 {"property": "C102", "status": "proved", "theorems": ["C102_linear", "C102_same_penalties", "C102_poisson", "C102_logistic", "C102_logistic_no_intercept"], "note": "finding"},
 {"property": "C103", "status": "proved", "theorems": ["C103_majority", "C103_signs", "C103_nan_estimate", "C103_agreement"], "note": "finding"},
 {"property": "C104", "status": "proved", "theorems": ["C104_same_arithmetic", "C104_descends", "C104_never_worse", "C104_plain"], "note": ""},
 {"property": "C105", "status": "proved", "theorems": ["C105_steps", "C105_gives_up"], "note": ""},
 {"property": "C106", "status": "proved", "theorems": ["C106_rate", "C106_gain", "C106_iterations", "C106_terminates", "C106_accuracy"], "note": ""},
 {"property": "C107", "status": "proved", "theorems": ["C107_turns_back", "C107_fails"], "note": "finding"},
 {"property": "C108", "status": "proved", "theorems": ["C108_softmax", "C108_any_order", "C108_infinite", "C108_sigmoid", "C108_predict_proba"], "note": "finding"},
 {"property": "C109", "status": "proved", "theorems": ["C109_trials", "C109_next", "C109_count"], "note": ""},
 {"property": "C110", "status": "proved", "theorems": ["C110_unbounded", "C110_default"], "note": "finding"},
 {"property": "C111", "status": "proved", "theorems": ["C111_order", "C111_ties", "C111_order_refuted"], "note": "finding"},
 {"property": "C112", "status": "proved", "theorems": ["C112_fixed", "C112_recovers", "C112_pythagoras", "C112_nonexpansive", "C112_unique", "C112_scaled", "C112_rows"], "note": ""},
 {"property": "C113", "status": "proved", "theorems": ["C113_half", "C113_any", "C113_refused", "C113_default", "C113_seven_tenths_refuted", "C113_integer", "C113_cur"], "note": "finding"},
 {"property": "C114", "status": "proved", "theorems": ["C114_all", "C114_never_again", "C114_counts", "C114_half_refuted"], "note": ""},
 {"property": "C115", "status": "proved", "theorems": ["C115_selection", "C115_estimation", "C115_stratified", "C115_proportional"], "note": "finding"},
 {"property": "C116", "status": "proved", "theorems": ["C116_null", "C116_null_standardized", "C116_lag", "C116_lag_standardized", "C116_overflow"], "note": "finding"},
 {"property": "C117", "status": "proved", "theorems": ["C117_zero_column", "C117_predictions"], "note": "finding"},
 {"property": "C118", "status": "proved", "theorems": ["C118_trials", "C118_defined", "C118_inside", "C118_gives_up", "C118_gives_up64"], "note": "finding"},
 {"property": "C119", "status": "proved", "theorems": ["C119_recovers"], "note": ""},
 {"property": "C120", "status": "proved", "theorems": ["C120_zero_model", "C120_worse"], "note": "finding"},
 {"property": "C121", "status": "proved", "theorems": ["C121_choice"], "note": ""},
 {"property": "C122", "status": "proved", "theorems": ["C122_nested", "C122_train"], "note": "finding"},
 {"property": "C123", "status": "proved", "theorems": ["C123_lasso", "C123_elastic"], "note": "finding"},
 {"property": "C124", "status": "proved", "theorems": ["C124_lasso", "C124_elastic", "C124_poisson", "C124_logistic"], "note": ""},
 {"property": "C125", "status": "proved", "theorems": ["C125_units", "C125_criteria"], "note": ""},
 {"property": "C126", "status": "proved", "theorems": ["C126_classes", "C126_standardized", "C126_residuals", "C126_counts"], "note": "finding"},
 {"property": "C127", "status": "proved", "theorems": ["C127_choice"], "note": ""},
 {"property": "C128", "status": "proved", "theorems": ["C128_swap", "C128_intercept", "C128_penalties", "C128_ties"], "note": ""},
 {"property": "C129", "status": "proved", "theorems": ["C129_choice", "C129_majority", "C129_constant", "C129_no_intercept"], "note": "finding"},
 {"property": "C130", "status": "proved", "theorems": ["C130_lasso", "C130_elastic", "C130_poisson", "C130_logistic"], "note": ""},
 {"property": "C131", "status": "proved", "theorems": ["C131_lasso", "C131_elastic", "C131_poisson", "C131_logistic"], "note": "finding"},
 {"property": "C132", "status": "proved", "theorems": ["C132_elastic", "C132_lasso", "C132_poisson"], "note": "finding"},
 {"property": "C133", "status": "proved", "theorems": ["C133_values", "C133_count_values", "C133_class_values", "C133_elastic", "C133_poisson"], "note": ""}
]}
