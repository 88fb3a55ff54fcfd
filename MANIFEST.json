{
 "claims": [
  {
   "property": "C01",
   "status": "proved",
   "theorems": [
    "C01_minmax_range_and_order",
    "C01_minmax_matrix_columns",
    "C01_minmax_constant_is_nan",
    "C01_minmax_default_axis_rejects",
    "C01_minmax_default_axis_square",
    "C01_minmax_default_axis_one_column",
    "C01_minmax_default_axis_one_row"
   ],
   "note": ""
  },
  {
   "property": "C02",
   "status": "proved",
   "theorems": [
    "C02_minmax_inverse",
    "C02_minmax_inverse_matrix",
    "C02_standard_inverse",
    "C02_standard_inverse_matrix"
   ],
   "note": ""
  },
  {
   "property": "C03",
   "status": "proved",
   "theorems": [
    "C03_standard_mean_zero_variance_inverse",
    "C03_fitted_variance",
    "C03_variance_zero_iff_constant",
    "C03_constant_is_nan",
    "C03_standard_matrix_columns",
    "C03_standard_default_axis_rejects",
    "C03_standard_default_axis_one_column",
    "C03_standard_default_axis_one_row",
    "C03_unit_variance_refuted"
   ],
   "note": ""
  },
  {
   "property": "C04",
   "status": "proved",
   "theorems": [
    "C04_onehot_rows",
    "C04_onehot_injective",
    "C04_onehot_decodable"
   ],
   "note": ""
  },
  {
   "property": "C05",
   "status": "proved",
   "theorems": [
    "C05_dummy_rows",
    "C05_dummy_order_isomorphism"
   ],
   "note": ""
  },
  {
   "property": "C06",
   "status": "proved",
   "theorems": [
    "C06_maxmargin_codes",
    "C06_maxmargin_two_classes_injective",
    "C06_maxmargin_merges"
   ],
   "note": ""
  },
  {
   "property": "C07",
   "status": "proved",
   "theorems": [
    "C07_imputer",
    "C07_all_missing_unchanged"
   ],
   "note": ""
  },
  {
   "property": "C08",
   "status": "proved",
   "theorems": [
    "C08_keyword_codes",
    "C08_class_indices_agree_iff",
    "C08_other_text_rejected",
    "C08_numeric_labels",
    "C08_class_indices_refuted"
   ],
   "note": ""
  },
  {
   "property": "C09",
   "status": "proved",
   "theorems": [
    "C09_integer_labels",
    "C09_text_labels",
    "C09_integer_class_indices",
    "C09_text_class_indices",
    "C09_merges_classes_refuted",
    "C09_merges_numeral_texts_refuted",
    "C09_python_integers_refuted"
   ],
   "note": ""
  },
  {
   "property": "C10",
   "status": "proved",
   "theorems": [
    "C10_normalisation_wins",
    "C10_columns_independent",
    "C10_columns_independent_digitised",
    "C10_numeric_total",
    "C10_normalised_column",
    "C10_integer_array_truncated"
   ],
   "note": ""
  },
  {
   "property": "C11",
   "status": "proved",
   "theorems": [
    "C11_hull_encloses",
    "C11_hull_spans_the_points",
    "C11_unique_leftmost_suffices",
    "C11_hull_convex",
    "C11_hull_total",
    "C11_duplicates_refuted",
    "C11_leftmost_tie_refuted"
   ],
   "note": ""
  },
  {
   "property": "C12",
   "status": "proved",
   "theorems": [
    "C12_total",
    "C12_unknown",
    "C12_continuous_iff",
    "C12_vector",
    "C12_matrix",
    "C12_set_of_entries_only"
   ],
   "note": ""
  },
  {
   "property": "C13",
   "status": "proved",
   "theorems": [
    "C13_pairs_kept",
    "C13_without_labels",
    "C13_mismatch_rejected"
   ],
   "note": ""
  },
  {
   "property": "C14",
   "status": "proved",
   "theorems": [
    "C14_clip_is_nearest",
    "C14_second_multiplier",
    "C14_second_multiplier_total"
   ],
   "note": ""
  },
  {
   "property": "C15",
   "status": "proved",
   "theorems": [
    "C15_random",
    "C15_indices",
    "C15_bad_indices_rejected",
    "C15_explicit",
    "C15_one_cluster_always_rejected",
    "C15_one_feature_read_as_indices",
    "C15_one_feature_floats_rejected"
   ],
   "note": ""
  },
  {
   "property": "C16",
   "status": "proved",
   "theorems": [
    "C16_gini_bounds",
    "C16_gini_zero_iff_pure",
    "C16_gini_is_disagreement",
    "C16_entropy_bounds",
    "C16_entropy_zero_iff_pure",
    "C16_entropy_is_mean_surprisal",
    "C16_order_irrelevant"
   ],
   "note": ""
  },
  {
   "property": "C17",
   "status": "proved",
   "theorems": [
    "C17_optimal_division",
    "C17_threshold_is_midpoint",
    "C17_gain_and_entropy_agree"
   ],
   "note": ""
  },
  {
   "property": "C18",
   "status": "proved",
   "theorems": [
    "C18_training_labels_reproduced",
    "C18_fewest_training_errors"
   ],
   "note": ""
  },
  {
   "property": "C19",
   "status": "proved",
   "theorems": [
    "C19_leaf_count",
    "C19_height_at_least_depth",
    "C19_height_of_discrete_tree",
    "C19_height_per_node",
    "C19_height_is_depth_refuted"
   ],
   "note": ""
  },
  {
   "property": "C20",
   "status": "proved",
   "theorems": [
    "C20_growth_ends",
    "C20_contradictory_rows_can_fail",
    "C20_predicts_training_labels",
    "C20_known_values_get_a_label",
    "C20_unseen_value_raises"
   ],
   "note": ""
  },
  {
   "property": "C21",
   "status": "proved",
   "theorems": [
    "C21_post_pruning_keeps_accuracy",
    "C21_post_pruning_any_tree",
    "C21_post_pruning_only_when_better",
    "C21_post_pruning_leaves_nothing_to_gain",
    "C21_post_pruning_succeeds",
    "C21_post_pruning_leaf_counts",
    "C21_post_pruning_height_refuted",
    "C21_pruning_needs_validation_data"
   ],
   "note": ""
  },
  {
   "property": "C22",
   "status": "proved",
   "theorems": [
    "C22_pre_pruning_decision",
    "C22_pre_pruning_only_collapses",
    "C22_missing_value_fails",
    "C22_continuous_node_fails",
    "C22_continuous_data_refuted",
    "C22_pre_pruning_height_refuted"
   ],
   "note": ""
  },
  {
   "property": "C23",
   "status": "proved",
   "theorems": [
    "C23_stump_is_optimal",
    "C23_stump_errs_on_at_most_half",
    "C23_stump_exists",
    "C23_too_little_data_fails"
   ],
   "note": ""
  },
  {
   "property": "C24",
   "status": "proved",
   "theorems": [
    "C24_every_moment",
    "C24_training_is_a_history",
    "C24_training_ends"
   ],
   "note": ""
  },
  {
   "property": "C25",
   "status": "proved",
   "theorems": [
    "C25_flags_agree",
    "C25_support_set"
   ],
   "note": ""
  },
  {
   "property": "C26",
   "status": "proved",
   "theorems": [
    "C26_exact_update_is_optimal",
    "C26_fresh_errors_are_exact",
    "C26_cache_after_update",
    "C26_training_can_lower_the_dual"
   ],
   "note": ""
  },
  {
   "property": "C27",
   "status": "proved",
   "theorems": [
    "C27_symmetric",
    "C27_rbf_range",
    "C27_positive_semidefinite",
    "C27_curvature",
    "C27_sigmoid_refuted"
   ],
   "note": ""
  },
  {
   "property": "C28",
   "status": "proved",
   "theorems": [
    "C28_support_vectors_suffice"
   ],
   "note": ""
  },
  {
   "property": "C29",
   "status": "proved",
   "theorems": [
    "C29_predict_nearest"
   ],
   "note": ""
  },
  {
   "property": "C30",
   "status": "proved",
   "theorems": [
    "C30_objective_never_increases"
   ],
   "note": ""
  },
  {
   "property": "C31",
   "status": "proved",
   "theorems": [
    "C31_early_stop",
    "C31_rounds_exhausted",
    "C31_clusters_are_predictions_refuted",
    "C31_stop_means_converged_refuted"
   ],
   "note": ""
  },
  {
   "property": "C32",
   "status": "proved",
   "theorems": [
    "C32_one_row_per_label",
    "C32_rows",
    "C32_gap",
    "C32_empty_cluster_fails"
   ],
   "note": ""
  },
  {
   "property": "C33",
   "status": "proved",
   "theorems": [
    "C33_responsibilities",
    "C33_training"
   ],
   "note": ""
  },
  {
   "property": "C34",
   "status": "proved",
   "theorems": [
    "C34_every_round",
    "C34_training",
    "C34_random_start"
   ],
   "note": ""
  },
  {
   "property": "C35",
   "status": "proved",
   "theorems": [
    "C35_priors",
    "C35_priors_exist",
    "C35_smoothed_priors",
    "C35_smoothed_priors_one_class_refuted",
    "C35_conditionals",
    "C35_dependent_priors",
    "C35_dependent_conditionals"
   ],
   "note": ""
  },
  {
   "property": "C36",
   "status": "proved",
   "theorems": [
    "C36_counts_are_positional",
    "C36_counts",
    "C36_super_parent_tables",
    "C36_wrong_labels_refuted"
   ],
   "note": ""
  },
  {
   "property": "C37",
   "status": "proved",
   "theorems": [
    "C37_reported_numbers"
   ],
   "note": ""
  },
  {
   "property": "C38",
   "status": "proved",
   "theorems": [
    "C38_density_is_normal",
    "C38_density_positive",
    "C38_density_symmetric",
    "C38_density_decreases",
    "C38_stored_statistics",
    "C38_constant_in_class",
    "C38_constant_in_class_super_parent"
   ],
   "note": ""
  },
  {
   "property": "C39",
   "status": "proved",
   "theorems": [
    "C39_labels",
    "C39_refits_accumulate",
    "C39_refit_on_same_data",
    "C39_label_uses_every_entry",
    "C39_averaged_shares_one_table",
    "C39_no_super_parent",
    "C39_averaged_one_parent",
    "C39_super_parent_ignored_refuted"
   ],
   "note": ""
  },
  {
   "property": "C40",
   "status": "proved",
   "theorems": [
    "C40_majority",
    "C40_fit_appends",
    "C40_learners_accumulate",
    "C40_length_mismatch",
    "C40_seed_range",
    "C40_no_learner"
   ],
   "note": ""
  },
  {
   "property": "C41",
   "status": "proved",
   "theorems": [
    "C41_weights_stay_a_distribution",
    "C41_round"
   ],
   "note": ""
  },
  {
   "property": "C42",
   "status": "proved",
   "theorems": [
    "C42_new_weights_make_error_half",
    "C42_training_error",
    "C42_factor_below_one",
    "C42_two_level_training",
    "C42_two_level_training_error"
   ],
   "note": ""
  },
  {
   "property": "C43",
   "status": "proved",
   "theorems": [
    "C43_second_fit_fails",
    "C43_fit_fit",
    "C43_members_kept",
    "C43_no_rounds",
    "C43_prediction",
    "C43_prediction_always_defined_refuted"
   ],
   "note": ""
  },
  {
   "property": "C44",
   "status": "proved",
   "theorems": [
    "C44_loss_is_negative_log_likelihood",
    "C44_loss_of_labels",
    "C44_gradient",
    "C44_hessian"
   ],
   "note": ""
  },
  {
   "property": "C45",
   "status": "proved",
   "theorems": [
    "C45_hessian_psd",
    "C45_convex",
    "C45_tangent",
    "C45_stationary_iff_minimum",
    "C45_minima_agree"
   ],
   "note": ""
  },
  {
   "property": "C46",
   "status": "proved",
   "theorems": [
    "C46_predictions",
    "C46_fit_then_predict",
    "C46_refit_is_fresh",
    "C46_loaded_weights_continue",
    "C46_untrained"
   ],
   "note": ""
  },
  {
   "property": "C47",
   "status": "proved",
   "theorems": [
    "C47_predict_closer_mean",
    "C47_predict_half_space",
    "C47_scatter",
    "C47_get_w_solves",
    "C47_get_w_is_fisher_optimal",
    "C47_fit_weights",
    "C47_fit_one_feature",
    "C47_fit_solves_refuted"
   ],
   "note": ""
  },
  {
   "property": "C48",
   "status": "proved",
   "theorems": [
    "C48_softmax_is_distribution",
    "C48_softmax_defined",
    "C48_softmax_shift",
    "C48_softmax_order",
    "C48_sigmoid",
    "C48_sigmoid_diff",
    "C48_relu"
   ],
   "note": ""
  },
  {
   "property": "C49",
   "status": "proved",
   "theorems": [
    "C49_softmax_gradient",
    "C49_sigmoid_gradient",
    "C49_sigmoid_sample_factor",
    "C49_step_lowers_sample_loss",
    "C49_class_numbers_push_all_classes",
    "C49_sgd_run_keeps_shape"
   ],
   "note": ""
  },
  {
   "property": "C50",
   "status": "proved",
   "theorems": [
    "C50_moments",
    "C50_corrected_average",
    "C50_update",
    "C50_constant_gradient",
    "C50_step_bound",
    "C50_run"
   ],
   "note": ""
  },
  {
   "property": "C51",
   "status": "proved",
   "theorems": [
    "C51_prediction",
    "C51_gradients",
    "C51_epoch",
    "C51_width_update_ignores_labels",
    "C51_width_gradient_error",
    "C51_exact_fit_is_kept_refuted",
    "C51_run",
    "C51_vector_labels_fail",
    "C51_other_widths"
   ],
   "note": ""
  },
  {
   "property": "C52",
   "status": "proved",
   "theorems": [
    "C52_binary_value",
    "C52_binary_defined",
    "C52_categorical_value",
    "C52_mse_value",
    "C52_mse_zero_means_equal_refuted"
   ],
   "note": ""
  },
  {
   "property": "C53",
   "status": "proved",
   "theorems": [
    "C53_binary_accuracy",
    "C53_unlabelled_predictions_count_as_correct",
    "C53_binary_total",
    "C53_binary_range",
    "C53_foreign_labels_always_correct",
    "C53_binary_order_irrelevant",
    "C53_categorical_accuracy",
    "C53_categorical_total",
    "C53_categorical_range",
    "C53_categorical_order_irrelevant",
    "C53_class_numbers_read_as_class_zero"
   ],
   "note": ""
  },
  {
   "property": "C54",
   "status": "proved",
   "theorems": [
    "C54_guard",
    "C54_success_enables",
    "C54_guard_mixture_refuted",
    "C54_untrained_file_refuted",
    "C54_untrained_not_saved",
    "C54_base_learners_refuted"
   ],
   "note": ""
  },
  {
   "property": "C55",
   "status": "proved",
   "theorems": [
    "C55_discriminant_analysis",
    "C55_naive_bayes",
    "C55_super_parent",
    "C55_averaged",
    "C55_decision_tree",
    "C55_decision_tree_pruner_refuted",
    "C55_kmeans",
    "C55_gaussian_mixture",
    "C55_bagging",
    "C55_adaboost",
    "C55_support_vector_classifier",
    "C55_kernel_constants_refuted",
    "C55_renamed_kernel_refuted",
    "C55_logistic_regression",
    "C55_learning_rate_refuted",
    "C55_network",
    "C55_radial_basis_function_network"
   ],
   "note": ""
  },
  {
   "property": "C56",
   "status": "proved",
   "theorems": [
    "C56_rejected_untouched",
    "C56_outdated_or_foreign",
    "C56_other_class",
    "C56_no_file",
    "C56_failed_load_flags",
    "C56_own_files_acceptable",
    "C56_own_versions",
    "C56_malformed",
    "C56_damaged_file_refuted"
   ],
   "note": ""
  },
  {
   "property": "C57",
   "status": "proved",
   "theorems": [
    "C57_old_contents_gone",
    "C57_first_operation",
    "C57_failed_save",
    "C57_part_of_the_new",
    "C57_incomplete_not_loaded",
    "C57_network_truncated_refuted"
   ],
   "note": ""
  },
  {
   "property": "C58",
   "status": "proved",
   "theorems": [
    "C58_merge",
    "C58_layers",
    "C58_deep_enough",
    "C58_replaces_refuted"
   ],
   "note": ""
  },
  {
   "property": "C59",
   "status": "proved",
   "theorems": [
    "C59_one_entry_per_epoch",
    "C59_lists_grow_by_the_epochs",
    "C59_lists_keep_equal_length",
    "C59_failed_fit_keeps_finished_epochs",
    "C59_repeated_fits_append",
    "C59_reporting_does_not_change_training",
    "C59_reporting_does_not_stop_training",
    "C59_nothing_without_history",
    "C59_sgd_entries",
    "C59_adam_entries",
    "C59_logistic_entries",
    "C59_rbf_entries",
    "C59_unknown_metric_fails",
    "C59_unknown_metric_is_a_type_error",
    "C59_bar_for_no_epochs",
    "C59_verbose_that_is_not_true"
   ],
   "note": ""
  },
  {
   "property": "C60",
   "status": "proved",
   "theorems": [
    "C60_python_width",
    "C60_python_never_backwards",
    "C60_python_full_at_the_end",
    "C60_python_position",
    "C60_exact_column_refuted",
    "C60_cc_bar",
    "C60_cc_few_epochs",
    "C60_bar_outlives_its_call",
    "C60_bar_of_zero_epochs"
   ],
   "note": ""
  },
  {
   "property": "C61",
   "status": "proved",
   "theorems": [
    "C61_criterion_names",
    "C61_initializer_names",
    "C61_kernel_names",
    "C61_optimizer_names",
    "C61_loss_names",
    "C61_metric_names",
    "C61_pruner_names",
    "C61_names_are_unambiguous",
    "C61_objects_pass_through",
    "C61_missing_arguments"
   ],
   "note": ""
  },
  {
   "property": "C62",
   "status": "proved",
   "theorems": [
    "C62_clustering",
    "C62_differences",
    "C62_bootstrap",
    "C62_multipliers",
    "C62_probabilities",
    "C62_projection",
    "C62_hull",
    "C62_metrics",
    "C62_losses",
    "C62_crossentropy",
    "C62_activations",
    "C62_kernels",
    "C62_target_type",
    "C62_init_centroids",
    "C62_second_multiplier",
    "C62_second_multiplier_refuted",
    "C62_second_multiplier_none",
    "C62_smoothed_prior",
    "C62_projection2_one_feature",
    "C62_projection2",
    "C62_metrics_shapes",
    "C62_kernels_one_feature",
    "C62_init_centroids_singletons",
    "C62_target_type_confused",
    "C62_hull_single"
   ],
   "note": ""
  },
  {
   "property": "C63",
   "status": "proved",
   "theorems": [
    "C63_at_most_two_levels",
    "C63_leaf_label_is_heavier_class",
    "C63_split_is_optimal",
    "C63_training_error",
    "C63_fit_succeeds",
    "C63_no_weight_fails"
   ],
   "note": ""
  },
  {
   "property": "C64",
   "status": "proved",
   "theorems": [
    "C64_default_mixture",
    "C64_given_mixture",
    "C64_weights_are_probabilities_refuted",
    "C64_one_component_rejected",
    "C64_default_covariance",
    "C64_degenerate_covariance_rejected"
   ],
   "note": ""
  },
  {
   "property": "C65",
   "status": "proved",
   "theorems": [
    "C65_split_never_raises_impurity",
    "C65_reported_gain_nonnegative"
   ],
   "note": ""
  },
  {
   "property": "C66",
   "status": "proved",
   "theorems": [
    "C66_converged",
    "C66_schedule"
   ],
   "note": ""
  },
  {
   "property": "C67",
   "status": "proved",
   "theorems": [
    "C67_training_settles"
   ],
   "note": ""
  },
  {
   "property": "C68",
   "status": "proved",
   "theorems": [
    "C68_likelihood",
    "C68_every_round",
    "C68_default_start",
    "C68_training_returns",
    "C68_likelihood_one_feature",
    "C68_one_feature_succeeds"
   ],
   "note": ""
  },
  {
   "property": "C69",
   "status": "proved",
   "theorems": [
    "C69_label_is_most_probable_class",
    "C69_label_compares_products",
    "C69_unseen_value_fails",
    "C69_constant_column_fails"
   ],
   "note": ""
  },
  {
   "property": "C70",
   "status": "proved",
   "theorems": [
    "C70_step",
    "C70_monotone",
    "C70_convergence_rate",
    "C70_total",
    "C70_every_rate_descends_refuted"
   ],
   "note": ""
  },
  {
   "property": "C71",
   "status": "proved",
   "theorems": [
    "C71_newton_step",
    "C71_newton_fails_iff_collinear",
    "C71_constant_feature_fails"
   ],
   "note": ""
  },
  {
   "property": "C72",
   "status": "proved",
   "theorems": [
    "C72_arguments"
   ],
   "note": ""
  },
  {
   "property": "C73",
   "status": "proved",
   "theorems": [
    "C73_last_seed_decides",
    "C73_unseeded_discards_seed",
    "C73_calls_continue",
    "C73_own_seed_refuted"
   ],
   "note": ""
  },
  {
   "property": "C74",
   "status": "proved",
   "theorems": [
    "C74_layers",
    "C74_distinct_draws",
    "C74_training_runs",
    "C74_vector",
    "C74_xavier_forms_differ",
    "C74_rbf"
   ],
   "note": ""
  },
  {
   "property": "C75",
   "status": "proved",
   "theorems": [
    "C75_layers",
    "C75_layers_shifted",
    "C75_equal_layers",
    "C75_vector",
    "C75_rbf",
    "C75_shapes",
    "C75_repeat",
    "C75_repeat_refuted"
   ],
   "note": ""
  },
  {
   "property": "C76",
   "status": "proved",
   "theorems": [
    "C76_last_column_split",
    "C76_plain",
    "C76_filled",
    "C76_no_labels",
    "C76_test_frame_loses_column",
    "C76_frame_described",
    "C76_float_labels_merged_refuted",
    "C76_float_column_makes_floats",
    "C76_integer_frame_is_cut",
    "C76_missing_text_label_fails",
    "C76_vector_labels",
    "C76_loaders_differ",
    "C76_encoded_tensors_fail",
    "C76_no_labels_raises",
    "C76_one_hot_table"
   ],
   "note": ""
  },
  {
   "property": "C77",
   "status": "proved",
   "theorems": [
    "C77_layout",
    "C77_one_box_per_node",
    "C77_leaves_evenly_spaced",
    "C77_inside_the_frame",
    "C77_trained",
    "C77_post_pruned",
    "C77_post_pruned_inside_refuted",
    "C77_single_leaf"
   ],
   "note": ""
  },
  {
   "property": "C78",
   "status": "proved",
   "theorems": [
    "C78_samples",
    "C78_each_sample_once",
    "C78_background",
    "C78_coordinates",
    "C78_svc",
    "C78_ensemble",
    "C78_logistic_line",
    "C78_logistic_other_dimensions",
    "C78_lda_projections",
    "C78_lda_line",
    "C78_gaussian_mixture",
    "C78_k_means_fails",
    "C78_k_means_hulls",
    "C78_bayes",
    "C78_bayes_fails",
    "C78_untrained",
    "C78_bayes_succeeds",
    "C78_ensemble_succeeds"
   ],
   "note": ""
  },
  {
   "property": "C79",
   "status": "proved",
   "theorems": [
    "C79_timer",
    "C79_memory_monitor",
    "C79_average_timer",
    "C79_average_timer_raises",
    "C79_average_timer_cases",
    "C79_no_runs"
   ],
   "note": ""
  },
  {
   "property": "C80",
   "status": "proved",
   "theorems": [
    "C80_defaults",
    "C80_precision",
    "C80_python",
    "C80_cpp",
    "C80_same_function",
    "C80_names"
   ],
   "note": ""
  },
  {
   "property": "C81",
   "status": "proved",
   "theorems": [
    "C81_scaled",
    "C81_constant",
    "C81_overflow",
    "C81_inverse"
   ],
   "note": ""
  },
  {
   "property": "C82",
   "status": "proved",
   "theorems": [
    "C82_sigmoid",
    "C82_saturates",
    "C82_saturates_32",
    "C82_saturates_64",
    "C82_operations_are_ieee"
   ],
   "note": ""
  },
  {
   "property": "C83",
   "status": "proved",
   "theorems": [
    "C83_rows",
    "C83_nan",
    "C83_probabilities",
    "C83_prediction_ignores_batch_refuted",
    "C83_predicted_class"
   ],
   "note": ""
  },
  {
   "property": "C84",
   "status": "proved",
   "theorems": [
    "C84_binary",
    "C84_categorical",
    "C84_certain_network",
    "C84_likelihood_overflow",
    "C84_likelihood_right_sample"
   ],
   "note": ""
  },
  {
   "property": "C85",
   "status": "proved",
   "theorems": [
    "C85_positive",
    "C85_order_kept_refuted",
    "C85_order_above_floor"
   ],
   "note": ""
  },
  {
   "property": "C86",
   "status": "proved",
   "theorems": [
    "C86_quotient",
    "C86_more_is_more",
    "C86_nan_counts_as_right",
    "C86_right_side"
   ],
   "note": ""
  },
  {
   "property": "C87",
   "status": "proved",
   "theorems": [
    "C87_box",
    "C87_balance",
    "C87_never_negative_refuted",
    "C87_box_32",
    "C87_box_64"
   ],
   "note": ""
  },
  {
   "property": "C88",
   "status": "proved",
   "theorems": [
    "C88_first_fit",
    "C88_coefficient_positive",
    "C88_no_coefficient",
    "C88_refit",
    "C88_refits",
    "C88_refit_is_new_fit_refuted",
    "C88_kernel_object",
    "C88_unknown_kernel",
    "C88_not_compiled",
    "C88_predict_states",
    "C88_text_coefficient",
    "C88_linear_ignores_the_coefficient"
   ],
   "note": ""
  },
  {
   "property": "C89",
   "status": "proved",
   "theorems": [
    "C89_only_the_kernel",
    "C89_columns",
    "C89_isometry",
    "C89_rbf_distances",
    "C89_rbf_translation",
    "C89_linear_translation_refuted",
    "C89_zero_column",
    "C89_scale_unit_free",
    "C89_exchanged_labels"
   ],
   "note": ""
  },
  {
   "property": "C90",
   "status": "proved",
   "theorems": [
    "C90_logistic_regression",
    "C90_linear_discriminant",
    "C90_stump",
    "C90_two_level_tree",
    "C90_adaboost",
    "C90_adaboost_default",
    "C90_kmeans",
    "C90_gaussian_mixture",
    "C90_tree",
    "C90_pruned_tree",
    "C90_pruned_height_refuted",
    "C90_ties_refuted",
    "C90_naive_bayes",
    "C90_spode",
    "C90_aode",
    "C90_naive_bayes_refuted"
   ],
   "note": ""
  },
  {
   "property": "C91",
   "status": "proved",
   "theorems": [
    "C91_script_reproducible",
    "C91_network_recipe",
    "C91_regression_recipe",
    "C91_radial_recipe",
    "C91_classifier_recipe",
    "C91_last_classifier_decides",
    "C91_last_network_decides",
    "C91_network_recompile",
    "C91_regression_recompile",
    "C91_radial_recompile",
    "C91_unseeded_classifier_overrides",
    "C91_unseeded_network_overrides",
    "C91_bagging_ignores_the_generator",
    "C91_bagging_resets_the_generator",
    "C91_default_baggers_are_equal",
    "C91_bagger_repeats_its_members",
    "C91_network_draws",
    "C91_network_draws_adam",
    "C91_classifier_draws",
    "C91_entropy_is_used_once",
    "C91_means_draws",
    "C91_one_draw_witness"
   ],
   "note": ""
  },
  {
   "property": "C92",
   "status": "proved",
   "theorems": [
    "C92_network_starts_afresh",
    "C92_regression_starts_afresh",
    "C92_radial_starts_afresh",
    "C92_loaded_network_continues",
    "C92_loaded_regression_continues",
    "C92_loaded_radial_continues",
    "C92_compile_keeps_what_was_loaded",
    "C92_loaded_radial_is_trained",
    "C92_bagging_fit",
    "C92_failed_fit_loses_the_parameters",
    "C92_load_keeps_further_layers"
   ],
   "note": ""
  },
  {
   "property": "C93",
   "status": "proved",
   "theorems": [
    "C93_discriminant_analysis",
    "C93_logistic_regression",
    "C93_network",
    "C93_radial_network",
    "C93_naive_bayes",
    "C93_super_parent",
    "C93_averaged",
    "C93_decision_tree",
    "C93_support_vectors",
    "C93_k_means",
    "C93_mixture",
    "C93_bagging",
    "C93_adaboost"
   ],
   "note": ""
  },
  {
   "property": "C94",
   "status": "proved",
   "theorems": [
    "C94_flag",
    "C94_untrained_stays_untrained",
    "C94_adaboost_keeps",
    "C94_bagging_keeps",
    "C94_bagging_refuted",
    "C94_super_parent_keeps",
    "C94_averaged_never_fails",
    "C94_tree_keeps",
    "C94_support_vectors_keep",
    "C94_discriminant_analysis_refuted",
    "C94_naive_bayes_refuted",
    "C94_k_means_refuted",
    "C94_network_forgets",
    "C94_logistic_forgets"
   ],
   "note": ""
  },
  {
   "property": "C95",
   "status": "proved",
   "theorems": [
    "C95_arrays_by_position",
    "C95_frames_by_name",
    "C95_frames_as_arrays",
    "C95_no_names",
    "C95_loaded_names_in_any_order",
    "C95_loaded_names_on_arrays_refuted",
    "C95_number_names_refuted",
    "C95_equal_names_refuted",
    "C95_new_object",
    "C95_number_of_names"
   ],
   "note": ""
  },
  {
   "property": "C96",
   "status": "proved",
   "theorems": [
    "C96_super_parent_by_name",
    "C96_averaged_by_name",
    "C96_frames_by_name",
    "C96_frames_without_names",
    "C96_frames_without_names_refuted",
    "C96_unknown_super_parent",
    "C96_unknown_super_parent_keeps_column",
    "C96_column_p_c_xi",
    "C96_training_after_loading",
    "C96_averaged_training_after_loading_refuted",
    "C96_new_object",
    "C96_number_of_names"
   ],
   "note": ""
  },
  {
   "property": "C97",
   "status": "proved",
   "theorems": [
    "C97_training_by_name",
    "C97_training_as_array",
    "C97_prediction_in_training_order",
    "C97_prediction_by_name_refuted",
    "C97_number_of_names"
   ],
   "note": ""
  },
  {
   "property": "C98",
   "status": "proved",
   "theorems": [
    "C98_stump",
    "C98_bagging",
    "C98_two_level_tree",
    "C98_adaboost",
    "C98_tree",
    "C98_tree_rounded",
    "C98_post_pruned_tree",
    "C98_whole_numbers_refuted"
   ],
   "note": ""
  },
  {
   "property": "C99",
   "status": "proved",
   "theorems": [
    "C99_minmax",
    "C99_minmax_columns",
    "C99_standard",
    "C99_standard_offset",
    "C99_standard_units_refuted",
    "C99_hull",
    "C99_hull_stable",
    "C99_kmeans",
    "C99_kmeans_given",
    "C99_kmeans_columns_refuted"
   ],
   "note": ""
  },
  {
   "property": "C100",
   "status": "proved",
   "theorems": [
    "C100_not_compiled",
    "C100_ensembles_not_compiled",
    "C100_naive_bayes_not_compiled",
    "C100_averaged_not_compiled",
    "C100_unknown_init",
    "C100_discriminant_analysis",
    "C100_naive_bayes",
    "C100_super_parent",
    "C100_averaged",
    "C100_k_means",
    "C100_mixture",
    "C100_bagging",
    "C100_adaboost",
    "C100_support_vectors",
    "C100_decision_tree",
    "C100_logistic_regression",
    "C100_network",
    "C100_radial_network"
   ],
   "note": ""
  },
  {
   "property": "C101",
   "status": "proved",
   "theorems": [
    "C101_matrix_functions",
    "C101_losses",
    "C101_losses_need_two",
    "C101_bootstrap",
    "C101_three_numbers",
    "C101_compare_differences",
    "C101_centroids",
    "C101_counts",
    "C101_initializers",
    "C101_integers_in_single"
   ],
   "note": ""
  },
  {
   "property": "C102",
   "status": "proved",
   "theorems": [
    "C102_support_vectors",
    "C102_rounds",
    "C102_starts",
    "C102_k_means",
    "C102_bayes",
    "C102_keep_precision"
   ],
   "note": ""
  },
  {
   "property": "C103",
   "status": "proved",
   "theorems": [
    "C103_line",
    "C103_compiled_line",
    "C103_value",
    "C103_compiled_value",
    "C103_special_values",
    "C103_engines_show_the_same_refuted",
    "C103_time_left",
    "C103_compiled_time_left",
    "C103_engines_show_the_same_time_refuted",
    "C103_time_used",
    "C103_compiled_time_used"
   ],
   "note": ""
  },
  {
   "property": "C104",
   "status": "proved",
   "theorems": [
    "C104_each_row_alone",
    "C104_rows_together",
    "C104_batches",
    "C104_shape",
    "C104_support_vector_answers",
    "C104_cluster_answers",
    "C104_ensemble_answers",
    "C104_flat_is_one_row",
    "C104_flat_is_a_column",
    "C104_flat_is_constant_rows",
    "C104_flat_answered_for_each_feature",
    "C104_flat_refused_by_ensembles",
    "C104_one_sample_one_answer_refuted",
    "C104_lists",
    "C104_single_column_stretched",
    "C104_tree_each_row_alone",
    "C104_tree_lists",
    "C104_tree_list_of_rows",
    "C104_bayes_each_row_alone",
    "C104_bayes_single_samples"
   ],
   "note": ""
  },
  {
   "property": "C105",
   "status": "proved",
   "theorems": [
    "C105_score",
    "C105_score_of_classes",
    "C105_single_row_refused",
    "C105_no_rows",
    "C105_batches",
    "C105_clusterings"
   ],
   "note": ""
  },
  {
   "property": "C106",
   "status": "proved",
   "theorems": [
    "C106_naive_bayes_other_names",
    "C106_super_parent_other_names",
    "C106_averaged_common_names",
    "C106_averaged_own_names_refuted",
    "C106_other_units_refuted"
   ],
   "note": ""
  },
  {
   "property": "C107",
   "status": "proved",
   "theorems": [
    "C107_newton_units",
    "C107_newton_units_from_zero",
    "C107_weights_units_scores",
    "C107_gradient_descent_units_refuted",
    "C107_lda_zero_points",
    "C107_lda_one_feature_nearest_mean",
    "C107_lda_one_feature_units",
    "C107_lda_units_refuted",
    "C107_mixture_zero_points",
    "C107_mixture_units_refuted"
   ],
   "note": ""
  },
  {
   "property": "C108",
   "status": "proved",
   "theorems": [
    "C108_logistic_regression_exchanged",
    "C108_discriminant_exchanged",
    "C108_naive_bayes_exchanged",
    "C108_super_parent_exchanged",
    "C108_averaged_exchanged",
    "C108_tree_other_names",
    "C108_first_seen_looks_at_no_names",
    "C108_ties_by_name_refuted",
    "C108_single_class_refuted"
   ],
   "note": ""
  },
  {
   "property": "C109",
   "status": "proved",
   "theorems": [
    "C109_logistic_columns",
    "C109_kmeans_columns",
    "C109_mixture_columns",
    "C109_network_outputs",
    "C109_sgd_columns",
    "C109_adam_columns",
    "C109_rbf_columns",
    "C109_stump_mistakes",
    "C109_stump_answers_refuted",
    "C109_lda_columns_refuted"
   ],
   "note": ""
  },
  {
   "property": "C110",
   "status": "proved",
   "theorems": [
    "C110_kmeans",
    "C110_gaussian_mixture",
    "C110_newton",
    "C110_linear_discriminant",
    "C110_tree",
    "C110_naive_bayes",
    "C110_spode",
    "C110_aode",
    "C110_scalers",
    "C110_accuracy",
    "C110_gradient_descent",
    "C110_gradient_descent_refuted",
    "C110_rbf",
    "C110_network",
    "C110_stump_refuted",
    "C110_smoothing_refuted"
   ],
   "note": ""
  },
  {
   "property": "C111",
   "status": "proved",
   "theorems": [
    "C111_newton",
    "C111_newton_few_samples",
    "C111_newton_one_hot",
    "C111_linear_discriminant",
    "C111_linear_discriminant_few_samples",
    "C111_mixture_learns_nothing",
    "C111_mixture_default_fails",
    "C111_few_samples_depend",
    "C111_mixture_few_samples",
    "C111_kmeans"
   ],
   "note": ""
  },
  {
   "property": "C112",
   "status": "proved",
   "theorems": [
    "C112_alike_sgd",
    "C112_alike_adam",
    "C112_alike_scores",
    "C112_silent_sgd",
    "C112_silent_adam",
    "C112_all_silent_sgd",
    "C112_all_silent_adam"
   ],
   "note": ""
  },
  {
   "property": "C113",
   "status": "proved",
   "theorems": [
    "C113_new_object_texts",
    "C113_new_object_ints",
    "C113_replaceable_ints",
    "C113_replaceable_texts",
    "C113_keys_distinct",
    "C113_features_fail",
    "C113_two_classes",
    "C113_again",
    "C113_again_published",
    "C113_again_raises",
    "C113_published_kind",
    "C113_one_hot_again",
    "C113_max_margin_again",
    "C113_same_frame_again",
    "C113_numbers_sort",
    "C113_same_frame_refuted"
   ],
   "note": ""
  },
  {
   "property": "C114",
   "status": "proved",
   "theorems": [
    "C114_same_outputs",
    "C114_gradient",
    "C114_sgd",
    "C114_adam",
    "C114_sgd_outputs",
    "C114_adam_outputs",
    "C114_rbf_predict",
    "C114_rbf_run",
    "C114_only_in_front_refuted"
   ],
   "note": ""
  },
  {
   "property": "C115",
   "status": "proved",
   "theorems": [
    "C115_outputs",
    "C115_sgd",
    "C115_adam",
    "C115_trained_outputs",
    "C115_adam_trained_outputs",
    "C115_loss",
    "C115_accuracy",
    "C115_accuracy_ties_refuted"
   ],
   "note": ""
  },
  {
   "property": "C116",
   "status": "proved",
   "theorems": [
    "C116_mixture",
    "C116_mixture_failure",
    "C116_mixture_labels",
    "C116_mixture_fit",
    "C116_k_means",
    "C116_k_means_labels",
    "C116_empty_cluster_refuted",
    "C116_ties_refuted"
   ],
   "note": ""
  },
  {
   "property": "C117",
   "status": "proved",
   "theorems": [
    "C117_compile_accepts",
    "C117_network",
    "C117_radial",
    "C117_regression",
    "C117_network_predict",
    "C117_radial_predict",
    "C117_regression_predict",
    "C117_network_no_epochs",
    "C117_radial_no_epochs",
    "C117_regression_no_epochs",
    "C117_no_rows",
    "C117_no_epochs_keeps",
    "C117_loaded_network",
    "C117_loaded_regression",
    "C117_loaded_radial"
   ],
   "note": ""
  }
 ]
}