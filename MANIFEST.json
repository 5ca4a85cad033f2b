{
 "claims": [
  {
   "property": "C01",
   "status": "proved",
   "theorems": [
    "C01_columns_are_the_transpose",
    "C01_panics_exactly",
    "C01_no_other_outcome"
   ],
   "note": ""
  },
  {
   "property": "C02",
   "status": "proved",
   "theorems": [
    "C02_one_hot",
    "C02_panics_exactly",
    "C02_cast_truncates"
   ],
   "note": ""
  },
  {
   "property": "C03",
   "status": "proved",
   "theorems": [
    "C03_one_hot_file_keeps_records",
    "C03_rectangular_file_is_well_formed",
    "C03_one_hot_file_panics",
    "C03_single_target_file",
    "C03_two_files",
    "C03_two_files_panic",
    "C03_feature_names"
   ],
   "note": "CSV tokenising and float parsing are inputs of the model."
  },
  {
   "property": "C04",
   "status": "proved",
   "theorems": [
    "C04_sorted_permutation",
    "C04_unique",
    "C04_panics_exactly",
    "C04_is_num_means_not_NaN"
   ],
   "note": ""
  },
  {
   "property": "C05",
   "status": "proved",
   "theorems": [
    "C05_same_data_sorted",
    "C05_total",
    "C05_row_indices"
   ],
   "note": ""
  },
  {
   "property": "C06",
   "status": "proved",
   "theorems": [
    "C06_partition_splits_by_the_question",
    "C06_panics_exactly"
   ],
   "note": ""
  },
  {
   "property": "C07",
   "status": "proved",
   "theorems": [
    "C07_new_partition_splits_by_value"
   ],
   "note": ""
  },
  {
   "property": "C08",
   "status": "partial",
   "theorems": [
    "C08_refuted",
    "C08_unreached_threshold"
   ],
   "note": "The property is false of the code: C08_refuted gives a witness and C08_unreached_threshold says exactly what happens for every threshold no row reaches; C07 is the property for reached thresholds."
  },
  {
   "property": "C09",
   "status": "proved",
   "theorems": [
    "C09_reported_split_is_usable",
    "C09_gain_is_a_number"
   ],
   "note": ""
  },
  {
   "property": "C10",
   "status": "partial",
   "theorems": [
    "C10_refuted",
    "C10_gain_is_the_true_reduction_partial",
    "C10_distinct_values_partial"
   ],
   "note": "False of the code when the reported threshold value is repeated in its column (C10_refuted). Proved whenever that value occurs once, in particular for distinct values. C51 says exactly what is computed in all cases."
  },
  {
   "property": "C11",
   "status": "partial",
   "theorems": [
    "C11_refuted",
    "C11_optimal_partial",
    "C11_distinct_values_partial"
   ],
   "note": "False of the code with repeated values (C11_refuted). Proved whenever the reported threshold value occurs once. C12 holds without any such assumption."
  },
  {
   "property": "C12",
   "status": "proved",
   "theorems": [
    "C12_gain_bounds_every_question",
    "C12_zero_gain_means_nothing_to_gain"
   ],
   "note": ""
  },
  {
   "property": "C13",
   "status": "proved",
   "theorems": [
    "C13_best_of_the_columns"
   ],
   "note": ""
  },
  {
   "property": "C14",
   "status": "proved",
   "theorems": [
    "C14_binary64_counterexample",
    "C14_pure_node_has_no_gain",
    "C14_pure_node_is_a_leaf"
   ],
   "note": "Exact arithmetic, as stated. C14_binary64_counterexample shows the f64 exception."
  },
  {
   "property": "C15",
   "status": "proved",
   "theorems": [
    "C15_increasing_transforms"
   ],
   "note": ""
  },
  {
   "property": "C16",
   "status": "partial",
   "theorems": [
    "C16_refuted",
    "C16_row_order_partial"
   ],
   "note": "False of the code with repeated values (C16_refuted). Proved whenever rows sharing a value above the column minimum have the same label."
  },
  {
   "property": "C17",
   "status": "proved",
   "theorems": [
    "C17_regression_tree_total",
    "C17_grad_boost_tree_total",
    "C17_amg_tree_total",
    "C17_terminates",
    "C17_budget_is_immaterial",
    "C17_class_count_mismatch_panics"
   ],
   "note": ""
  },
  {
   "property": "C18",
   "status": "proved",
   "theorems": [
    "C18_regression_tree_depth",
    "C18_grad_boost_tree_depth",
    "C18_amg_tree_depth"
   ],
   "note": ""
  },
  {
   "property": "C19",
   "status": "proved",
   "theorems": [
    "C19_trees_are_proper",
    "C19_lookup_finds_a_leaf",
    "C19_lookup_of_short_rows"
   ],
   "note": ""
  },
  {
   "property": "C20",
   "status": "proved",
   "theorems": [
    "C20_leaves_partition_the_training_set"
   ],
   "note": ""
  },
  {
   "property": "C21",
   "status": "proved",
   "theorems": [
    "C21_leaf_holds_the_rows_on_the_path",
    "C21_training_rows_reach_their_leaf"
   ],
   "note": ""
  },
  {
   "property": "C22",
   "status": "proved",
   "theorems": [
    "C22_trees_do_not_depend_on_the_schedule",
    "C22_single_threaded_calls_end",
    "C22_sorted_tree_does_not_depend_on_the_schedule"
   ],
   "note": "Every interleaving of rayon::join and of the parallel maps; panics included. The closures' lack of side effects is read off the Rust types."
  },
  {
   "property": "C23",
   "status": "proved",
   "theorems": [
    "C23_outcome_is_unique",
    "C23_parallel_map_keeps_order",
    "C23_parallel_map_panics",
    "C23_column_scans",
    "C23_sorted_column_scans",
    "C23_column_partitioning",
    "C23_residuals"
   ],
   "note": "par_iter().map().collect() under every interleaving, and each of its uses in the code."
  },
  {
   "property": "C24",
   "status": "proved",
   "theorems": [
    "C24_both_strategies_build_the_same_tree",
    "C24_same_error"
   ],
   "note": ""
  },
  {
   "property": "C25",
   "status": "proved",
   "theorems": [
    "C25_grad_boost_tree_is_a_regression_tree",
    "C25_amg_tree_is_a_regression_tree"
   ],
   "note": ""
  },
  {
   "property": "C26",
   "status": "proved",
   "theorems": [
    "C26_deeper_trees_refine"
   ],
   "note": ""
  },
  {
   "property": "C27",
   "status": "proved",
   "theorems": [
    "C27_prediction_is_the_leaf_mean",
    "C27_prediction_is_the_leaf_average",
    "C27_float_range_counterexample"
   ],
   "note": "Exact arithmetic for mean and range; in f64 the mean in the code's order (C27_prediction_is_the_leaf_average) and a counterexample to the range bound, as stated."
  },
  {
   "property": "C28",
   "status": "proved",
   "theorems": [
    "C28_deeper_fits_no_worse",
    "C28_single_leaf_error_is_the_variance"
   ],
   "note": "Exact arithmetic, as stated; for any two depth limits m <= m'."
  },
  {
   "property": "C29",
   "status": "proved",
   "theorems": [
    "C29_deep_tree_predicts_training_labels",
    "C29_deep_tree_has_no_training_error",
    "C29_leaf_above_the_limit_has_one_label"
   ],
   "note": ""
  },
  {
   "property": "C30",
   "status": "proved",
   "theorems": [
    "C30_majority_class",
    "C30_majority_class_of_leaf",
    "C30_answer_is_unique",
    "C30_no_votes_is_class_0"
   ],
   "note": ""
  },
  {
   "property": "C31",
   "status": "proved",
   "theorems": [
    "C31_tree_accuracy_is_a_fraction",
    "C31_multi_class_accuracy_is_a_fraction",
    "C31_amg_accuracy_is_a_fraction",
    "C31_all_or_none",
    "C31_empty_test_set_is_nan"
   ],
   "note": ""
  },
  {
   "property": "C32",
   "status": "proved",
   "theorems": [
    "C32_tree_error",
    "C32_ensemble_score",
    "C32_trained_predictions"
   ],
   "note": ""
  },
  {
   "property": "C33",
   "status": "proved",
   "theorems": [
    "C33_regression_shape",
    "C33_multi_class_shape",
    "C33_amg_shape"
   ],
   "note": ""
  },
  {
   "property": "C34",
   "status": "proved",
   "theorems": [
    "C34_regression_prefix",
    "C34_multi_class_prefix",
    "C34_amg_prefix"
   ],
   "note": ""
  },
  {
   "property": "C35",
   "status": "proved",
   "theorems": [
    "C35_stage_fits_residuals"
   ],
   "note": ""
  },
  {
   "property": "C36",
   "status": "proved",
   "theorems": [
    "C36_multi_class_stage_fits_residuals",
    "C36_amg_stage_fits_residuals"
   ],
   "note": ""
  },
  {
   "property": "C37",
   "status": "proved",
   "theorems": [
    "C37_prediction_is_a_sum",
    "C37_trained_prediction_is_a_sum",
    "C37_multi_class_score_is_a_sum",
    "C37_amg_score_is_a_sum"
   ],
   "note": ""
  },
  {
   "property": "C38",
   "status": "proved",
   "theorems": [
    "C38_boosting_fits_no_worse",
    "C38_deep_trees_scale_the_score",
    "C38_above_two_counterexample"
   ],
   "note": "Exact arithmetic, as stated, with the exact factor for deep trees and a witness above rate 2."
  },
  {
   "property": "C39",
   "status": "proved",
   "theorems": [
    "C39_residuals",
    "C39_multi_class_run",
    "C39_amg_run",
    "C39_overflow_is_nan",
    "C39_binary64_range"
   ],
   "note": "Exact arithmetic, as stated. In f64: C39_overflow_is_nan for overflow, C39_binary64_range for the closed range without it."
  },
  {
   "property": "C40",
   "status": "proved",
   "theorems": [
    "C40_multi_class_leaf_outputs",
    "C40_amg_leaf_outputs",
    "C40_multi_class_one_class",
    "C40_amg_one_class"
   ],
   "note": ""
  },
  {
   "property": "C41",
   "status": "proved",
   "theorems": [
    "C41_multi_class_answers_one_class",
    "C41_amg_answers_one_class",
    "C41_empty_scores_panic",
    "C41_answer_is_unique"
   ],
   "note": ""
  },
  {
   "property": "C42",
   "status": "proved",
   "theorems": [
    "C42_scores_sum_to_one",
    "C42_leaf_stores_largest_entry",
    "C42_leaf_of_any_row",
    "C42_reconstruction",
    "C42_prediction",
    "C42_training_update",
    "C42_sums_to_zero"
   ],
   "note": ""
  },
  {
   "property": "C43",
   "status": "proved",
   "theorems": [
    "C43_two_classes"
   ],
   "note": ""
  },
  {
   "property": "C44",
   "status": "proved",
   "theorems": [
    "C44_regression_total",
    "C44_multi_class_total",
    "C44_amg_total"
   ],
   "note": ""
  },
  {
   "property": "C45",
   "status": "proved",
   "theorems": [
    "C45_ensembles_do_not_depend_on_the_schedule",
    "C45_training_ends"
   ],
   "note": "Whole training runs as parallel programs, under every interleaving."
  },
  {
   "property": "C46",
   "status": "proved",
   "theorems": [
    "C46_predictions_are_pointwise",
    "C46_regression_score",
    "C46_classification_scores",
    "C46_missing_values_panic"
   ],
   "note": ""
  },
  {
   "property": "C47",
   "status": "proved",
   "theorems": [
    "C47_tree_error_ignores_order",
    "C47_ensemble_score_ignores_order",
    "C47_accuracy_ignores_order"
   ],
   "note": ""
  },
  {
   "property": "C48",
   "status": "proved",
   "theorems": [
    "C48_tree_shift",
    "C48_ensemble_shift"
   ],
   "note": ""
  },
  {
   "property": "C49",
   "status": "proved",
   "theorems": [
    "C49_zero_learning_rate_f64",
    "C49_no_iterations",
    "C49_zero_learning_rate"
   ],
   "note": ""
  },
  {
   "property": "C50",
   "status": "proved",
   "theorems": [
    "C50_elementwise",
    "C50_length_mismatch_panics",
    "C50_scale",
    "C50_mean_squared_difference",
    "C50_sum",
    "C50_sum_panics",
    "C50_average",
    "C50_average_panics"
   ],
   "note": ""
  },
  {
   "property": "C51",
   "status": "proved",
   "theorems": [
    "C51_best_considered_cut"
   ],
   "note": ""
  },
  {
   "property": "C52",
   "status": "proved",
   "theorems": [
    "C52_tree_rescaling",
    "C52_ensemble_rescaling"
   ],
   "note": ""
  },
  {
   "property": "C53",
   "status": "proved",
   "theorems": [
    "C53_regression_leaf_is_the_average",
    "C53_classification_leaf",
    "C53_amg_leaf",
    "C53_every_leaf_is_reached"
   ],
   "note": ""
  },
  {
   "property": "C54",
   "status": "proved",
   "theorems": [
    "C54_prints_every_node",
    "C54_lines_of_a_node",
    "C54_panics_exactly",
    "C54_printed_before_a_panic",
    "C54_text_determines_the_tree"
   ],
   "note": "Lines as written by println!; formatting of f64 and str is a parameter (readable_formats says what injectivity needs of it)."
  },
  {
   "property": "C55",
   "status": "proved",
   "theorems": [
    "C55_main_reports_the_test_error",
    "C55_missing_training_data",
    "C55_too_few_training_labels",
    "C55_missing_test_data"
   ],
   "note": "The file system, the measured time and the formatting are parameters; f64::sqrt and 0.1 are correctly rounded."
  },
  {
   "property": "C56",
   "status": "proved",
   "theorems": [
    "C56_gain_accuracy",
    "C56_gain_near_the_exact_gain",
    "C56_gain_bounds_every_question",
    "C56_reported_question_nearly_best"
   ],
   "note": "Absolute error bound for whole-number labels; the exact values are those of the exact-arithmetic model (C51) on the same table."
  },
  {
   "property": "C57",
   "status": "proved",
   "theorems": [
    "C57_pure_node_has_no_gain",
    "C57_pure_node_is_a_leaf",
    "C57_zero_gain_means_nothing_to_gain",
    "C57_leaf_above_the_limit_has_one_label",
    "C57_deep_tree_predicts_training_labels",
    "C57_deep_tree_has_no_training_error"
   ],
   "note": "The training-error theorem assumes powf(0.0, 2.0) = 0.0."
  },
  {
   "property": "C58",
   "status": "proved",
   "theorems": [
    "C58_prediction_is_the_rounded_mean"
   ],
   "note": "Rounding to nearest even of the exact mean (Flocq's round)."
  },
  {
   "property": "C59",
   "status": "proved",
   "theorems": [
    "C59_regression_tree",
    "C59_grad_boost_tree",
    "C59_amg_tree",
    "C59_ensembles",
    "C59_longer_rows",
    "C59_ensemble_scores",
    "C59_tree_scores"
   ],
   "note": ""
  },
  {
   "property": "C60",
   "status": "proved",
   "theorems": [
    "C60_regression_tree_size",
    "C60_grad_boost_tree_size",
    "C60_amg_tree_size"
   ],
   "note": ""
  },
  {
   "property": "C61",
   "status": "proved",
   "theorems": [
    "C61_regression_tree",
    "C61_regression_tree_answers",
    "C61_boosted_trees",
    "C61_regression_ensemble",
    "C61_classification_ensembles"
   ],
   "note": ""
  },
  {
   "property": "C62",
   "status": "proved",
   "theorems": [
    "C62_same_split",
    "C62_regression_tree",
    "C62_regression_tree_answers",
    "C62_boosted_trees"
   ],
   "note": ""
  },
  {
   "property": "C63",
   "status": "proved",
   "theorems": [
    "C63_questions",
    "C63_tree_answers",
    "C63_ensemble_answers",
    "C63_out_of_range"
   ],
   "note": ""
  },
  {
   "property": "C64",
   "status": "proved",
   "theorems": [
    "C64_trees",
    "C64_ensembles"
   ],
   "note": ""
  },
  {
   "property": "C65",
   "status": "proved",
   "theorems": [
    "C65_tree",
    "C65_ensemble"
   ],
   "note": ""
  },
  {
   "property": "C66",
   "status": "proved",
   "theorems": [
    "C66_tree",
    "C66_regression_ensemble",
    "C66_multi_class_ensemble",
    "C66_amg_ensemble"
   ],
   "note": ""
  },
  {
   "property": "C67",
   "status": "proved",
   "theorems": [
    "C67_stage_error",
    "C67_outside_the_range",
    "C67_no_progress_is_final",
    "C67_no_progress_no_change",
    "C67_rate_two_needed",
    "C67_mirrored_rates"
   ],
   "note": ""
  },
  {
   "property": "C68",
   "status": "proved",
   "theorems": [
    "C68_multi_class_gradient",
    "C68_amg_gradient",
    "C68_multi_class_newton",
    "C68_amg_newton"
   ],
   "note": ""
  },
  {
   "property": "C69",
   "status": "proved",
   "theorems": [
    "C69_multi_class_iteration",
    "C69_amg_iteration",
    "C69_multi_class_first_iteration",
    "C69_amg_first_iteration"
   ],
   "note": ""
  },
  {
   "property": "C70",
   "status": "proved",
   "theorems": [
    "C70_gain",
    "C70_question",
    "C70_regression_tree",
    "C70_grad_boost_tree",
    "C70_amg_tree",
    "C70_ties_break_by_position"
   ],
   "note": ""
  },
  {
   "property": "C71",
   "status": "proved",
   "theorems": [
    "C71_answers_stay_near_the_mean"
   ],
   "note": ""
  },
  {
   "property": "C72",
   "status": "proved",
   "theorems": [
    "C72_question",
    "C72_regression_tree",
    "C72_regression_tree_answers",
    "C72_boosted_trees",
    "C72_regression_ensemble",
    "C72_classification_ensembles",
    "C72_copies_in_any_order",
    "C72_binary64_counterexample"
   ],
   "note": ""
  },
  {
   "property": "C73",
   "status": "proved",
   "theorems": [
    "C73_regression",
    "C73_multi_class_score",
    "C73_amg_score"
   ],
   "note": ""
  },
  {
   "property": "C74",
   "status": "proved",
   "theorems": [
    "C74_tree_prediction",
    "C74_boosted_leaf_output",
    "C74_initial_guess"
   ],
   "note": ""
  },
  {
   "property": "C75",
   "status": "proved",
   "theorems": [
    "C75_tree_error",
    "C75_ensemble_score"
   ],
   "note": ""
  },
  {
   "property": "C76",
   "status": "proved",
   "theorems": [
    "C76_residual"
   ],
   "note": ""
  },
  {
   "property": "C77",
   "status": "proved",
   "theorems": [
    "C77_gain_accuracy",
    "C77_gain_near_the_exact_gain",
    "C77_gain_bounds_every_question",
    "C77_reported_question_nearly_best"
   ],
   "note": ""
  },
  {
   "property": "C78",
   "status": "proved",
   "theorems": [
    "C78_questions_nearly_best",
    "C78_leaf_above_the_limit_has_little_to_gain"
   ],
   "note": ""
  },
  {
   "property": "C79",
   "status": "proved",
   "theorems": [
    "C79_leaf_entry_is_finite_exactly_when",
    "C79_residuals_of_moderate_scores",
    "C79_learned_class_becomes_nan",
    "C79_training_accuracy_falls_from_1_to_0"
   ],
   "note": ""
  },
  {
   "property": "C80",
   "status": "proved",
   "theorems": [
    "C80_leaf_output_error"
   ],
   "note": ""
  },
  {
   "property": "C81",
   "status": "proved",
   "theorems": [
    "C81_perfect_leaf_answers_class_1"
   ],
   "note": ""
  },
  {
   "property": "C82",
   "status": "proved",
   "theorems": [
    "C82_one_iteration",
    "C82_whole_run",
    "C82_strictly_worse"
   ],
   "note": ""
  },
  {
   "property": "C83",
   "status": "proved",
   "theorems": [
    "C83_leaves_above_the_limit_are_nearly_pure",
    "C83_deep_tree_nearly_fits",
    "C83_close_labels_share_a_leaf"
   ],
   "note": ""
  },
  {
   "property": "C84",
   "status": "proved",
   "theorems": [
    "C84_deeper_fits_no_worse",
    "C84_no_worse_than_the_average",
    "C84_strictly_worse"
   ],
   "note": ""
  },
  {
   "property": "C85",
   "status": "proved",
   "theorems": [
    "C85_negated_tree",
    "C85_negated_ensemble",
    "C85_zero_signs_tree",
    "C85_zero_signs_ensemble"
   ],
   "note": ""
  },
  {
   "property": "C86",
   "status": "proved",
   "theorems": [
    "C86_constant_target_tree",
    "C86_constant_target_ensemble",
    "C86_zero_target_tree",
    "C86_zero_target_ensemble"
   ],
   "note": ""
  },
  {
   "property": "C87",
   "status": "proved",
   "theorems": [
    "C87_scaled_tree",
    "C87_scaled_ensemble"
   ],
   "note": ""
  },
  {
   "property": "C88",
   "status": "proved",
   "theorems": [
    "C88_answers_stay_near_the_mean",
    "C88_giant_labels_overflow"
   ],
   "note": ""
  },
  {
   "property": "C89",
   "status": "proved",
   "theorems": [
    "C89_tree",
    "C89_ensemble",
    "C89_targets_from_one_tree",
    "C89_targets_from_one_ensemble",
    "C89_stretching_one_target_matters"
   ],
   "note": ""
  },
  {
   "property": "C90",
   "status": "proved",
   "theorems": [
    "C90_regression_tree",
    "C90_grad_boost_tree",
    "C90_amg_tree",
    "C90_other_rows_do_not_matter"
   ],
   "note": ""
  },
  {
   "property": "C91",
   "status": "proved",
   "theorems": [
    "C91_clear_tree_is_the_exact_tree",
    "C91_clear_ensemble_is_the_exact_ensemble"
   ],
   "note": ""
  },
  {
   "property": "C92",
   "status": "proved",
   "theorems": [
    "C92_noise_does_not_change_clear_questions"
   ],
   "note": ""
  },
  {
   "property": "C93",
   "status": "proved",
   "theorems": [
    "C93_noise_does_not_change_clear_ensembles"
   ],
   "note": ""
  },
  {
   "property": "C94",
   "status": "proved",
   "theorems": [
    "C94_boosting_a_fitting_tree_is_that_tree_shrunk",
    "C94_deep_ensembles_answer_training_rows"
   ],
   "note": ""
  },
  {
   "property": "C95",
   "status": "proved",
   "theorems": [
    "C95_training_accuracy_is_the_share_of_the_leaf_majorities",
    "C95_deeper_trees_classify_no_worse",
    "C95_deep_tree_classifies_everything"
   ],
   "note": ""
  },
  {
   "property": "C96",
   "status": "proved",
   "theorems": [
    "C96_an_iteration_moves_towards_the_tree_error",
    "C96_every_iteration_removes_a_share",
    "C96_training_error_falls_geometrically",
    "C96_boosting_learns_the_training_labels",
    "C96_exclusive_or_is_never_learnt"
   ],
   "note": ""
  },
  {
   "property": "C97",
   "status": "proved",
   "theorems": [
    "C97_one_iteration",
    "C97_whole_run",
    "C97_reported_score"
   ],
   "note": ""
  },
  {
   "property": "C98",
   "status": "proved",
   "theorems": [
    "C98_tree",
    "C98_ensemble",
    "C98_allowance_needed"
   ],
   "note": ""
  },
  {
   "property": "C99",
   "status": "proved",
   "theorems": [
    "C99_tree",
    "C99_ensemble",
    "C99_allowance_needed"
   ],
   "note": ""
  },
  {
   "property": "C100",
   "status": "proved",
   "theorems": [
    "C100_regression",
    "C100_multi_class",
    "C100_amg",
    "C100_ties_break_by_position"
   ],
   "note": ""
  },
  {
   "property": "C101",
   "status": "proved",
   "theorems": [
    "C101_regression",
    "C101_multi_class",
    "C101_amg"
   ],
   "note": ""
  },
  {
   "property": "C102",
   "status": "proved",
   "theorems": [
    "C102_multi_class_iteration",
    "C102_multi_class_run",
    "C102_multi_class_first_iteration",
    "C102_amg_iteration",
    "C102_amg_run",
    "C102_amg_first_iteration",
    "C102_limit_needed"
   ],
   "note": ""
  },
  {
   "property": "C103",
   "status": "proved",
   "theorems": [
    "C103_multi_class_separates",
    "C103_multi_class_learns",
    "C103_multi_class_full_score",
    "C103_amg_separates",
    "C103_amg_learns",
    "C103_amg_full_score"
   ],
   "note": ""
  },
  {
   "property": "C104",
   "status": "proved",
   "theorems": [
    "C104_multi_class_scores",
    "C104_multi_class_answer",
    "C104_multi_class_score",
    "C104_amg_scores",
    "C104_amg_answer",
    "C104_amg_score"
   ],
   "note": ""
  },
  {
   "property": "C105",
   "status": "proved",
   "theorems": [
    "C105_regression",
    "C105_trained"
   ],
   "note": ""
  },
  {
   "property": "C106",
   "status": "proved",
   "theorems": [
    "C106_blend",
    "C106_full_step",
    "C106_full_step_error"
   ],
   "note": ""
  },
  {
   "property": "C107",
   "status": "proved",
   "theorems": [
    "C107_tree",
    "C107_amg_answer",
    "C107_amg_scores",
    "C107_multi_class_scores",
    "C107_iteration_needed",
    "C107_exact_arithmetic_needed"
   ],
   "note": ""
  },
  {
   "property": "C108",
   "status": "proved",
   "theorems": [
    "C108_share_removed",
    "C108_rate_one"
   ],
   "note": ""
  },
  {
   "property": "C109",
   "status": "proved",
   "theorems": [
    "C109_ledger",
    "C109_bounded",
    "C109_some_small_step",
    "C109_converges"
   ],
   "note": ""
  },
  {
   "property": "C110",
   "status": "proved",
   "theorems": [
    "C110_ensemble_error",
    "C110_tree_error",
    "C110_tree_accuracy",
    "C110_multi_class_accuracy",
    "C110_amg_accuracy"
   ],
   "note": ""
  },
  {
   "property": "C111",
   "status": "proved",
   "theorems": [
    "C111_ensemble_error",
    "C111_tree_error",
    "C111_tree_accuracy",
    "C111_multi_class_accuracy",
    "C111_amg_accuracy"
   ],
   "note": ""
  },
  {
   "property": "C112",
   "status": "proved",
   "theorems": [
    "C112_same_answers",
    "C112_tree_class",
    "C112_ensemble_mean",
    "C112_tree_mean",
    "C112_first_classes"
   ],
   "note": ""
  }
 ]
}