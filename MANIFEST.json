{
 "claims": [
  {
   "property": "C01",
   "status": "proved",
   "theorems": [
    "C01_strides_1D",
    "C01_strides_2D"
   ],
   "note": ""
  },
  {
   "property": "C02",
   "status": "proved",
   "theorems": [
    "C02_short_series_1D",
    "C02_short_series_2D",
    "C02_short_series_dist_vector"
   ],
   "note": ""
  },
  {
   "property": "C03",
   "status": "proved",
   "theorems": [
    "C03_subsequence_is_stride_row"
   ],
   "note": ""
  },
  {
   "property": "C04",
   "status": "proved",
   "theorems": [
    "C04_is_prime",
    "C04_prime_up_to",
    "C04_is_prime_any_sqrt",
    "C04_one_is_not_prime_refuted"
   ],
   "note": "1 is accepted although it is not prime: C04_one_is_not_prime_refuted"
  },
  {
   "property": "C05",
   "status": "proved",
   "theorems": [
    "C05_choice_log_range",
    "C05_choice_log_slot"
   ],
   "note": ""
  },
  {
   "property": "C06",
   "status": "proved",
   "theorems": [
    "C06_combinations"
   ],
   "note": ""
  },
  {
   "property": "C07",
   "status": "proved",
   "theorems": [
    "C07_manhattan_metric",
    "C07_euclidean_metric",
    "C07_squared_euclidean",
    "C07_manhattan_value",
    "C07_manhattan_lengths"
   ],
   "note": ""
  },
  {
   "property": "C08",
   "status": "proved",
   "theorems": [
    "C08_features_univariate",
    "C08_features_multivariate",
    "C08_features_univariate_any",
    "C08_features_unique"
   ],
   "note": ""
  },
  {
   "property": "C09",
   "status": "proved",
   "theorems": [
    "C09_univariate_transform",
    "C09_univariate_transform_total"
   ],
   "note": ""
  },
  {
   "property": "C10",
   "status": "proved",
   "theorems": [
    "C10_multivariate_transform",
    "C10_multivariate_transform_total"
   ],
   "note": ""
  },
  {
   "property": "C11",
   "status": "proved",
   "theorems": [
    "C11_univariate_padding",
    "C11_multivariate_padding",
    "C11_padding_irrelevant",
    "C11_padding_irrelevant_multivariate"
   ],
   "note": ""
  },
  {
   "property": "C12",
   "status": "proved",
   "theorems": [
    "C12_schedule_independence"
   ],
   "note": ""
  },
  {
   "property": "C13",
   "status": "proved",
   "theorems": [
    "C13_row_depends_on_its_sample",
    "C13_selection_univariate",
    "C13_selection_multivariate",
    "C13_selection_univariate_variable",
    "C13_selection_multivariate_variable"
   ],
   "note": ""
  },
  {
   "property": "C14",
   "status": "proved",
   "theorems": [
    "C14_one_channel",
    "C14_one_channel_variable"
   ],
   "note": ""
  },
  {
   "property": "C15",
   "status": "proved",
   "theorems": [
    "C15_dist_vector_agrees",
    "C15_dist_vector_agrees_variable"
   ],
   "note": ""
  },
  {
   "property": "C16",
   "status": "proved",
   "theorems": [
    "C16_multivariate_fit_then_transform",
    "C16_fit_then_transform",
    "C16_matches_its_source"
   ],
   "note": ""
  },
  {
   "property": "C17",
   "status": "proved",
   "theorems": [
    "C17_phase_invariance",
    "C17_distance_vector_rotates"
   ],
   "note": ""
  },
  {
   "property": "C18",
   "status": "proved",
   "theorems": [
    "C18_offset_invariance",
    "C18_scale_error",
    "C18_normalised_moments",
    "C18_scale_invariance_refuted"
   ],
   "note": "exact scale invariance is false because of the regulariser (C18_scale_invariance_refuted); the exact error is C18_scale_error"
  },
  {
   "property": "C19",
   "status": "proved",
   "theorems": [
    "C19_normalised_distance_bound",
    "C19_normalised_minimum_range"
   ],
   "note": ""
  },
  {
   "property": "C20",
   "status": "proved",
   "theorems": [
    "C20_feature_ranges",
    "C20_sentinel",
    "C20_nonnegative_minimum_refuted"
   ],
   "note": "the minimum is negative only for the sentinel of a series without windows: C20_nonnegative_minimum_refuted, C20_sentinel"
  },
  {
   "property": "C21",
   "status": "proved",
   "theorems": [
    "C21_threshold_monotone"
   ],
   "note": ""
  },
  {
   "property": "C22",
   "status": "proved",
   "theorems": [
    "C22_univariate_draws_fit",
    "C22_multivariate_draws_fit"
   ],
   "note": ""
  },
  {
   "property": "C23",
   "status": "proved",
   "theorems": [
    "C23_fitted_univariate_subsequences"
   ],
   "note": ""
  },
  {
   "property": "C24",
   "status": "proved",
   "theorems": [
    "C24_fitted_variable_length_subsequences"
   ],
   "note": ""
  },
  {
   "property": "C25",
   "status": "proved",
   "theorems": [
    "C25_fitted_multivariate_subsequences"
   ],
   "note": ""
  },
  {
   "property": "C26",
   "status": "proved",
   "theorems": [
    "C26_fitted_multivariate_variable_length"
   ],
   "note": ""
  },
  {
   "property": "C27",
   "status": "proved",
   "theorems": [
    "C27_multivariate_thresholds",
    "C27_thresholds"
   ],
   "note": ""
  },
  {
   "property": "C28",
   "status": "proved",
   "theorems": [
    "C28_multivariate_channels_kept_apart",
    "C28_starts_kept_apart",
    "C28_overlap_fraction",
    "C28_phase_overlap",
    "C28_phase_overlap_refuted",
    "C28_mixed_lengths_refuted"
   ],
   "note": "the bound on shared points is for equal lengths; with phase invariance it is doubled (C28_phase_overlap_refuted) and it fails between different lengths (C28_mixed_lengths_refuted)"
  },
  {
   "property": "C29",
   "status": "proved",
   "theorems": [
    "C29_multivariate_missing_shapelets",
    "C29_missing_shapelets",
    "C29_constant_series"
   ],
   "note": ""
  },
  {
   "property": "C30",
   "status": "proved",
   "theorems": [
    "C30_multivariate_fit_total",
    "C30_multivariate_fit_then_transform",
    "C30_univariate_fit_total",
    "C30_univariate_fit_then_transform"
   ],
   "note": ""
  },
  {
   "property": "C31",
   "status": "proved",
   "theorems": [
    "C31_packing_round_trip"
   ],
   "note": ""
  },
  {
   "property": "C32",
   "status": "proved",
   "theorems": [
    "C32_multivariate_parameters_determined_by_seed",
    "C32_parameters_determined_by_seed",
    "C32_reproducible_refuted"
   ],
   "note": "parameters are determined by the seed; reproducibility of the shapelets under other thread states is refuted by a witness"
  },
  {
   "property": "C33",
   "status": "proved",
   "theorems": [
    "C33_length_bounds",
    "C33_reduction_proportion_refuted"
   ],
   "note": "with at most 3 possible lengths the reduction does not keep the documented proportion: C33_reduction_proportion_refuted"
  },
  {
   "property": "C34",
   "status": "proved",
   "theorems": [
    "C34_effective_lengths",
    "C34_lengths_in_range",
    "C34_three_points_refuted"
   ],
   "note": "false for 3 timestamps: C34_three_points_refuted gives length 1"
  },
  {
   "property": "C35",
   "status": "proved",
   "theorems": [
    "C35_selected_pair",
    "C35_other_dtypes",
    "C35_univariate_variable_refuted"
   ],
   "note": "'univariate_variable' cannot be requested through the constructor: C35_univariate_variable_refuted"
  },
  {
   "property": "C36",
   "status": "proved",
   "theorems": [
    "C36_padding"
   ],
   "note": ""
  },
  {
   "property": "C37",
   "status": "proved",
   "theorems": [
    "C37_ridge_history",
    "C37_ridge_seeded",
    "C37_history_independent",
    "C37_type_refuted",
    "C37_max_channels_refuted",
    "C37_min_len_refuted",
    "C37_relative_lengths_refuted",
    "C37_generator_advances"
   ],
   "note": "true for R_DST_Ridge and for explicit parameters of R_DST; refuted for the four attributes named in the statement"
  },
  {
   "property": "C38",
   "status": "proved",
   "theorems": [
    "C38_ridge_no_stale_model",
    "C38_transform_unaffected",
    "C38_failed_fit_changes",
    "C38_float32_refuted"
   ],
   "note": "C38_float32_refuted: a failed fit can make every later fit fail; the exact effects are C38_failed_fit_changes"
  },
  {
   "property": "C39",
   "status": "proved",
   "theorems": [
    "C39_labels_aligned",
    "C39_lengths_refuted",
    "C39_sample_size",
    "C39_sample_count"
   ],
   "note": "labels are aligned; lengths are not: C39_lengths_refuted; C39_sample_size assumes that sklearn.utils.resample returns the number of positions asked, inside the array, without repetition unless replace is set"
  },
  {
   "property": "C40",
   "status": "proved",
   "theorems": [
    "C40_no_effect",
    "C40_documented_refuted"
   ],
   "note": "the documented effect is absent: C40_documented_refuted"
  },
  {
   "property": "C41",
   "status": "proved",
   "theorems": [
    "C41_constructor"
   ],
   "note": ""
  },
  {
   "property": "C42",
   "status": "proved",
   "theorems": [
    "C42_check_array_3D",
    "C42_check_array_2D",
    "C42_check_array_1D",
    "C42_lists"
   ],
   "note": ""
  },
  {
   "property": "C43",
   "status": "proved",
   "theorems": [
    "C43_n_jobs"
   ],
   "note": ""
  },
  {
   "property": "C44",
   "status": "proved",
   "theorems": [
    "C44_budget",
    "C44_zero_jobs",
    "C44_refit_single_thread"
   ],
   "note": ""
  },
  {
   "property": "C45",
   "status": "proved",
   "theorems": [
    "C45_vote",
    "C45_unanimous",
    "C45_zero_weights",
    "C45_labels_refuted"
   ],
   "note": "the returned value is a class number: C45_labels_refuted"
  },
  {
   "property": "C46",
   "status": "proved",
   "theorems": [
    "C46_positions",
    "C46_same_order",
    "C46_seeded",
    "C46_order_refuted"
   ],
   "note": "C46_order_refuted: another order of the fits permutes the seeds"
  },
  {
   "property": "C47",
   "status": "proved",
   "theorems": [
    "C47_kept_columns",
    "C47_kept_columns_any",
    "C47_same_columns",
    "C47_constant_dropped_refuted"
   ],
   "note": "exact for real numbers; C47_constant_dropped_refuted is a constant binary64 column that is kept"
  },
  {
   "property": "C48",
   "status": "proved",
   "theorems": [
    "C48_partition",
    "C48_missing_class"
   ],
   "note": ""
  },
  {
   "property": "C49",
   "status": "proved",
   "theorems": [
    "C49_index",
    "C49_univariate",
    "C49_duplicates_refuted",
    "C49_multivariate_refuted"
   ],
   "note": "C49_duplicates_refuted and C49_multivariate_refuted give colliding indices"
  },
  {
   "property": "C50",
   "status": "proved",
   "theorems": [
    "C50_normalised",
    "C50_moments",
    "C50_constant_refuted"
   ],
   "note": "C50_constant_refuted: a constant binary64 series that does not become zeros"
  },
  {
   "property": "C51",
   "status": "proved",
   "theorems": [
    "C51_differences",
    "C51_laws"
   ],
   "note": ""
  },
  {
   "property": "C52",
   "status": "proved",
   "theorems": [
    "C52_rows",
    "C52_columns",
    "C52_rows_real",
    "C52_empty_refuted",
    "C52_all",
    "C52_all_single_refuted"
   ],
   "note": "C52_empty_refuted and C52_all_single_refuted give the inputs outside the domain on which the function is right"
  },
  {
   "property": "C53",
   "status": "proved",
   "theorems": [
    "C53_partition",
    "C53_negative_margin_refuted",
    "C53_binary64_refuted"
   ],
   "note": "C53_negative_margin_refuted and C53_binary64_refuted give the limits of the partition"
  },
  {
   "property": "C54",
   "status": "proved",
   "theorems": [
    "C54_pairs",
    "C54_holm",
    "C54_prefix",
    "C54_two_classifiers"
   ],
   "note": ""
  },
  {
   "property": "C55",
   "status": "proved",
   "theorems": [
    "C55_best_match",
    "C55_exact_match",
    "C55_distance_vector",
    "C55_plot",
    "C55_multivariate"
   ],
   "note": ""
  },
  {
   "property": "C56",
   "status": "proved",
   "theorems": [
    "C56_attribution",
    "C56_coefficients",
    "C56_selection",
    "C56_panels",
    "C56_label_refuted"
   ],
   "note": "C56_label_refuted: class_id is used as two different things"
  },
  {
   "property": "C57",
   "status": "proved",
   "theorems": [
    "C57_min_len",
    "C57_loader",
    "C57_arrays_overwritten",
    "C57_arrays_refuted"
   ],
   "note": "min_len given by the user is overwritten for arrays: C57_arrays_overwritten, C57_arrays_refuted"
  },
  {
   "property": "C58",
   "status": "proved",
   "theorems": [
    "C58_distances",
    "C58_multivariate_distances",
    "C58_exact_match",
    "C58_order",
    "C58_features",
    "C58_normalised_overflow"
   ],
   "note": "without fast-math; normalised distances can overflow to NaN: C58_normalised_overflow"
  },
  {
   "property": "C59",
   "status": "proved",
   "theorems": [
    "C59_univariate_uses_channel_0",
    "C59_missing_channel",
    "C59_missing_channel_variable",
    "C59_checked_refuted"
   ],
   "note": "C59_checked_refuted: the number of features is not checked"
  },
  {
   "property": "C60",
   "status": "proved",
   "theorems": [
    "C60_multivariate_schedule_independent",
    "C60_univariate_schedule_independent"
   ],
   "note": ""
  },
  {
   "property": "C61",
   "status": "proved",
   "theorems": [
    "C61_multivariate_normalisation_proportion_ends",
    "C61_normalisation_proportion_ends"
   ],
   "note": ""
  },
  {
   "property": "C62",
   "status": "proved",
   "theorems": [
    "C62_loader",
    "C62_loader_errors"
   ],
   "note": ""
  },
  {
   "property": "C63",
   "status": "proved",
   "theorems": [
    "C63_fold_scores",
    "C63_history_refuted"
   ],
   "note": "C63_history_refuted: with a history-dependent pipeline the scores depend on earlier folds"
  },
  {
   "property": "C64",
   "status": "proved",
   "theorems": [
    "C64_ranks",
    "C64_sum",
    "C64_dominance",
    "C64_duplicate_refuted"
   ],
   "note": "C64_duplicate_refuted: an incomplete comparison that is not detected"
  },
  {
   "property": "C65",
   "status": "proved",
   "theorems": [
    "C65_ranks_order",
    "C65_pairs_aligned",
    "C65_pvalues_refuted"
   ],
   "note": "C65_pvalues_refuted: p-values depend on the row order"
  },
  {
   "property": "C66",
   "status": "proved",
   "theorems": [
    "C66_matrix"
   ],
   "note": ""
  },
  {
   "property": "C67",
   "status": "proved",
   "theorems": [
    "C67_weights",
    "C67_shifted_labels_refuted"
   ],
   "note": "C67_shifted_labels_refuted: labels {1,2} give only zero weights"
  },
  {
   "property": "C68",
   "status": "proved",
   "theorems": [
    "C68_accepted",
    "C68_after_fit",
    "C68_ensemble_refuted"
   ],
   "note": "C68_ensemble_refuted: the ensemble interpreter refuses every object"
  },
  {
   "property": "C69",
   "status": "proved",
   "theorems": [
    "C69_fit",
    "C69_transform",
    "C69_fit_total",
    "C69_defaults"
   ],
   "note": ""
  },
  {
   "property": "C70",
   "status": "proved",
   "theorems": [
    "C70_diagram",
    "C70_bar_refuted",
    "C70_path_refuted",
    "C70_figure",
    "C70_figure_refuted"
   ],
   "note": "C70_bar_refuted: a bar may cover a classifier significantly different from its ends; C70_figure_refuted: lines leave the figure from 17 classifiers on; C70_path_refuted: a given path is not written"
  },
  {
   "property": "C71",
   "status": "proved",
   "theorems": [
    "C71_rdst_refuted",
    "C71_ridge",
    "C71_ensemble",
    "C71_ensemble_lengths"
   ],
   "note": "C71_rdst_refuted: no R_DST object can be cloned"
  },
  {
   "property": "C72",
   "status": "proved",
   "theorems": [
    "C72_cells",
    "C72_agrees",
    "C72_duplicates_refuted"
   ],
   "note": "C72_duplicates_refuted: with duplicated series the score can be the one on the training series"
  },
  {
   "property": "C73",
   "status": "proved",
   "theorems": [
    "C73_ridge"
   ],
   "note": ""
  },
  {
   "property": "C74",
   "status": "proved",
   "theorems": [
    "C74_fit",
    "C74_predict",
    "C74_lists_refuted"
   ],
   "note": "C74_lists_refuted: no list or object array can be fitted, against the tags"
  },
  {
   "property": "C75",
   "status": "proved",
   "theorems": [
    "C75_derivate",
    "C75_periodigram",
    "C75_lists_refuted",
    "C75_hankel_refuted"
   ],
   "note": "C75_lists_refuted: Periodigram takes no list; C75_hankel_refuted: the offset is not the optimal one"
  },
  {
   "property": "C76",
   "status": "proved",
   "theorems": [
    "C76_transform",
    "C76_selection",
    "C76_short",
    "C76_alone_refuted",
    "C76_ridge",
    "C76_ensemble"
   ],
   "note": "sklearn assumed to treat rows separately (by_row); C76_alone_refuted: a series of 2 points may be refused alone"
  },
  {
   "property": "C77",
   "status": "proved",
   "theorems": [
    "C77_fit",
    "C77_ridge",
    "C77_merged_refuted"
   ],
   "note": "C77_merged_refuted: merging classes is not a renaming; sklearn assumed to compare labels only (renamable)"
  },
  {
   "property": "C78",
   "status": "proved",
   "theorems": [
    "C78_ridge",
    "C78_ensemble"
   ],
   "note": ""
  },
  {
   "property": "C79",
   "status": "proved",
   "theorems": [
    "C79_fit_total",
    "C79_fit",
    "C79_transform",
    "C79_percentile_refuted"
   ],
   "note": "libm assumed accurate to 2^-45 (libm_accurate; correctly rounded functions satisfy it); C79_percentile_refuted: percentile 100 - 2^-46 reads out of bounds"
  },
  {
   "property": "C80",
   "status": "proved",
   "theorems": [
    "C80_distances",
    "C80_features",
    "C80_integers",
    "C80_transform"
   ],
   "note": ""
  },
  {
   "property": "C81",
   "status": "proved",
   "theorems": [
    "C81_univariate",
    "C81_multivariate",
    "C81_primes_univariate",
    "C81_primes_multivariate",
    "C81_largest_dilation_never_drawn"
   ],
   "note": "the generator itself is not modelled: the theorem says which number decides what"
  },
  {
   "property": "C82",
   "status": "proved",
   "theorems": [
    "C82_univariate",
    "C82_multivariate",
    "C82_same_length_uniform",
    "C82_variable_length_chance",
    "C82_variable_length_uniform_refuted",
    "C82_test_uniform"
   ],
   "note": "C82_variable_length_uniform_refuted: with variable lengths windows of series with few free windows are over-represented"
  },
  {
   "property": "C83",
   "status": "proved",
   "theorems": [
    "C83_channels",
    "C83_orderings",
    "C83_uniform"
   ],
   "note": ""
  },
  {
   "property": "C84",
   "status": "proved",
   "theorems": [
    "C84_fit",
    "C84_transform",
    "C84_offset",
    "C84_ridge",
    "C84_zero_shapelet_refuted"
   ],
   "note": "C84_zero_shapelet_refuted: an offset can make fit drop shapelets; sklearn scaler assumed to undo factors (scale_free), which std_scale_free shows for mean and deviation over the reals"
  },
  {
   "property": "C85",
   "status": "proved",
   "theorems": [
    "C85_zscore",
    "C85_distances",
    "C85_features",
    "C85_fit",
    "C85_transform",
    "C85_constant_refuted"
   ],
   "note": "C85_constant_refuted: constant windows of large values get z-scores far from 0 in binary64; sums are taken from left to right, as numba's mean and std do"
  },
  {
   "property": "C86",
   "status": "proved",
   "theorems": [
    "C86_unfitted",
    "C86_failed_refit",
    "C86_ridge_unfitted",
    "C86_ensemble_unfitted",
    "C86_ensemble_failed_refit"
   ],
   "note": "for the ensemble, the ridge classifier is assumed to store one row of leave-one-out values per sample"
  },
  {
   "property": "C87",
   "status": "proved",
   "theorems": [
    "C87_noise",
    "C87_normalised_noise",
    "C87_constant_windows"
   ],
   "note": "C87_constant_windows: the bound for normalised shapelets degenerates on constant windows, as it must"
  },
  {
   "property": "C88",
   "status": "proved",
   "theorems": [
    "C88_longer",
    "C88_joined",
    "C88_phase_refuted"
   ],
   "note": "C88_phase_refuted: with phase invariance the minimum can rise"
  },
  {
   "property": "C89",
   "status": "proved",
   "theorems": [
    "C89_sequential",
    "C89_features",
    "C89_finite",
    "C89_two_executions",
    "C89_integers",
    "C89_order_refuted"
   ],
   "note": "shapelets that are not normalised; C89_order_refuted: two orders can give different counts"
  },
  {
   "property": "C90",
   "status": "proved",
   "theorems": [
    "C90_same",
    "C90_minimum",
    "C90_transform",
    "C90_capped_refuted"
   ],
   "note": "sums in the order of the code; C90_capped_refuted: distances above 1e100 are cut to 1e100"
  },
  {
   "property": "C91",
   "status": "proved",
   "theorems": [
    "C91_renamed",
    "C91_parts",
    "C91_order",
    "C91_fewer"
   ],
   "note": "C91_renamed in any arithmetic, the others over the reals"
  },
  {
   "property": "C92",
   "status": "proved",
   "theorems": [
    "C92_no_overflow",
    "C92_fitted_univariate",
    "C92_fitted_multivariate",
    "C92_overflow_refuted"
   ],
   "note": "C92_overflow_refuted: a hand-made dilation of 2^62 wraps; the generation side is modelled on unbounded integers only"
  },
  {
   "property": "C93",
   "status": "proved",
   "theorems": [
    "C93_dilation"
   ],
   "note": "over the reals, without phase invariance"
  },
  {
   "property": "C94",
   "status": "proved",
   "theorems": [
    "C94_similar",
    "C94_different"
   ],
   "note": "over the reals"
  },
  {
   "property": "C95",
   "status": "proved",
   "theorems": [
    "C95_reversed"
   ],
   "note": "over the reals"
  },
  {
   "property": "C96",
   "status": "proved",
   "theorems": [
    "C96_restart",
    "C96_accuracies",
    "C96_zero_refuted",
    "C96_other_list_refuted",
    "C96_start_over",
    "C96_compiled_refuted"
   ],
   "note": ""
  },
  {
   "property": "C97",
   "status": "proved",
   "theorems": [
    "C97_integers"
   ],
   "note": ""
  },
  {
   "property": "C98",
   "status": "proved",
   "theorems": [
    "C98_fit",
    "C98_transform",
    "C98_any_fit",
    "C98_any_transform"
   ],
   "note": "the order of thresholds and counts over the reals, C98_any_fit and C98_any_transform in any arithmetic"
  },
  {
   "property": "C99",
   "status": "proved",
   "theorems": [
    "C99_seed",
    "C99_own",
    "C99_order",
    "C99_shared_refuted",
    "C99_refit_refuted",
    "C99_n_samples_refuted",
    "C99_ridge_seed",
    "C99_ridge_refit_refuted"
   ],
   "note": "C99_shared_refuted, C99_refit_refuted, C99_n_samples_refuted, C99_ridge_refit_refuted for the false parts"
  },
  {
   "property": "C100",
   "status": "proved",
   "theorems": [
    "C100_transform",
    "C100_features",
    "C100_training",
    "C100_first_refuted"
   ],
   "note": "C100_first_refuted for the part about the first window; strict arithmetic only, fast-math (the default) does not specify NaN"
  }
 ]
}