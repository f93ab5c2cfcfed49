{
 "claims": [
  {
   "property": "C01",
   "status": "proved",
   "theorems": [
    "C01_highscore_sorted"
   ],
   "note": ""
  },
  {
   "property": "C02",
   "status": "proved",
   "theorems": [
    "C02_highscore_capacity",
    "C02_capacity_one_panics",
    "C02_capacity_zero_empty"
   ],
   "note": ""
  },
  {
   "property": "C03",
   "status": "proved",
   "theorems": [
    "C03_highscore_keeps_best"
   ],
   "note": ""
  },
  {
   "property": "C04",
   "status": "proved",
   "theorems": [
    "C04_highscore_json_roundtrip",
    "C04_highscore_json_full_list",
    "C04_highscore_json_roundtrip_refuted"
   ],
   "note": "The full round trip is false of the code: UnmarshalJSON re-inserts the nodes and Insert drops one when the list reaches MaxItems (C04_highscore_json_roundtrip_refuted); proved for Len() < MaxItems."
  },
  {
   "property": "C05",
   "status": "proved",
   "theorems": [
    "C05_node_json_roundtrip",
    "C05_node_json_nonfinite",
    "C05_nodesequal_sound"
   ],
   "note": ""
  },
  {
   "property": "C06",
   "status": "proved",
   "theorems": [
    "C06_bit_model_refines_array",
    "C06_bit_model_out_of_range",
    "C06_bit_model_slack_bits"
   ],
   "note": ""
  },
  {
   "property": "C07",
   "status": "proved",
   "theorems": [
    "C07_gcs_lcs_extremal",
    "C07_gcs_lcs_panic"
   ],
   "note": ""
  },
  {
   "property": "C08",
   "status": "proved",
   "theorems": [
    "C08_selected_features",
    "C08_selected2model",
    "C08_same_listing",
    "C08_sa_item"
   ],
   "note": ""
  },
  {
   "property": "C09",
   "status": "proved",
   "theorems": [
    "C09_branching_partition",
    "C09_branching_panic"
   ],
   "note": ""
  },
  {
   "property": "C10",
   "status": "proved",
   "theorems": [
    "C10_design_matrix",
    "C10_design_matrix_total",
    "C10_column_view"
   ],
   "note": ""
  },
  {
   "property": "C11",
   "status": "proved",
   "theorems": [
    "C11_textbook",
    "C11_monotone",
    "C11_aicc_above_aic",
    "C11_zero_residual"
   ],
   "note": ""
  },
  {
   "property": "C12",
   "status": "proved",
   "theorems": [
    "C12_least_squares",
    "C12_mismatch_panics",
    "C12_predict_one",
    "C12_tiny_singular_value_refuted"
   ],
   "note": "Least-squares optimality holds for every SVD whose singular values are exactly zero or above Fit's threshold; below it the claim is false (C12_tiny_singular_value_refuted)."
  },
  {
   "property": "C13",
   "status": "proved",
   "theorems": [
    "C13_bounds_enclose",
    "C13_saturated",
    "C13_saturated_refuted"
   ],
   "note": "The lower bound is false for saturated sub-models (C13_saturated_refuted); proved elsewhere, with the RssTol floor explicit."
  },
  {
   "property": "C14",
   "status": "proved",
   "theorems": [
    "C14_end_to_end",
    "C14_branch_and_bound_optimal",
    "C14_branch_and_bound_optimal_seeded",
    "C14_branch_and_bound_positive_scores"
   ],
   "note": "Proved under the guard that excludes the race of C15; C15 shows that the guard is needed."
  },
  {
   "property": "C15",
   "status": "proved",
   "theorems": [
    "C15_optimal_without_guard_refuted"
   ],
   "note": "A witness schedule loses the optimum (C15_optimal_without_guard_refuted)."
  },
  {
   "property": "C16",
   "status": "proved",
   "theorems": [
    "C16_root_never_scored",
    "C16_list_without_root",
    "C16_best_root_model_is_lost",
    "C16_nodes_of_the_list"
   ],
   "note": ""
  },
  {
   "property": "C17",
   "status": "proved",
   "theorems": [
    "C17_no_panic",
    "C17_no_deadlock",
    "C17_one_child_worker_at_a_time",
    "C17_bounded_work",
    "C17_terminates_if_fair"
   ],
   "note": ""
  },
  {
   "property": "C18",
   "status": "proved",
   "theorems": [
    "C18_cutoff_ignored_by_CreateChild",
    "C18_worker_runs_CreateChild",
    "C18_cutoff_ignored_by_SelectModel",
    "C18_documented_rule_refuted"
   ],
   "note": "CreateChild never reads the cutoff, so the documented rule is false (C18_documented_rule_refuted)."
  },
  {
   "property": "C19",
   "status": "proved",
   "theorems": [
    "C19_counter_formula",
    "C19_counter_adds",
    "C19_reported_value",
    "C19_counted_twice",
    "C19_half_reported_as_more_than_all"
   ],
   "note": ""
  },
  {
   "property": "C20",
   "status": "proved",
   "theorems": [
    "C20_clean_queue",
    "C20_remove_keeps_something",
    "C20_remove_equal_bounds_noop",
    "C20_remove_keeps_something_f64_refuted",
    "C20_queue_bound"
   ],
   "note": "Exact in real arithmetic; with rounding RemoveLeastPromising can drop every node (C20_remove_keeps_something_f64_refuted)."
  },
  {
   "property": "C21",
   "status": "proved",
   "theorems": [
    "C21_brute_force"
   ],
   "note": ""
  },
  {
   "property": "C22",
   "status": "proved",
   "theorems": [
    "C22_sascore_invariant",
    "C22_sascore_keeps_best"
   ],
   "note": ""
  },
  {
   "property": "C23",
   "status": "proved",
   "theorems": [
    "C23_replaced_entry_keeps_old_coefficients",
    "C23_one_coefficient_per_feature_refuted"
   ],
   "note": "The entry invariant one would expect is false (C23_one_coefficient_per_feature_refuted)."
  },
  {
   "property": "C24",
   "status": "proved",
   "theorems": [
    "C24_allowed_models",
    "C24_result"
   ],
   "note": ""
  },
  {
   "property": "C25",
   "status": "proved",
   "theorems": [
    "C25_five_rows",
    "C25_nan_never_returns",
    "C25_nan_observation_never_returns"
   ],
   "note": ""
  },
  {
   "property": "C26",
   "status": "proved",
   "theorems": [
    "C26_columns_split",
    "C26_otherwise_panics",
    "C26_names"
   ],
   "note": ""
  },
  {
   "property": "C27",
   "status": "proved",
   "theorems": [
    "C27_save_and_read_back",
    "C27_six_decimals",
    "C27_exact_iff",
    "C27_small_values_lost",
    "C27_small_values_lost_binary64",
    "C27_binary64_text",
    "C27_binary64_special",
    "C27_ties_to_even",
    "C27_without_names_first_row_lost"
   ],
   "note": ""
  },
  {
   "property": "C28",
   "status": "proved",
   "theorems": [
    "C28_subset",
    "C28_subset_panics",
    "C28_json_roundtrip",
    "C28_json_refuses_nonfinite",
    "C28_copy_independent",
    "C28_write_seen",
    "C28_isequal_ignores_names",
    "C28_isequal_sound"
   ],
   "note": ""
  },
  {
   "property": "C29",
   "status": "proved",
   "theorems": [
    "C29_array",
    "C29_array_constant",
    "C29_cols",
    "C29_rows",
    "C29_units",
    "C29_normalized_data",
    "C29_constant_column_panics",
    "C29_constant_target"
   ],
   "note": ""
  },
  {
   "property": "C30",
   "status": "proved",
   "theorems": [
    "C30_predictions",
    "C30_no_bias_column",
    "C30_bias_selected_panics"
   ],
   "note": ""
  },
  {
   "property": "C31",
   "status": "proved",
   "theorems": [
    "C31_prox",
    "C31_zero_odd_nonexpansive",
    "C31_nan_becomes_zero"
   ],
   "note": ""
  },
  {
   "property": "C32",
   "status": "proved",
   "theorems": [
    "C32_cached_product",
    "C32_cache_after_every_sweep",
    "C32_descent",
    "C32_objective_is_textbook",
    "C32_settles",
    "C32_zero_stays"
   ],
   "note": ""
  },
  {
   "property": "C33",
   "status": "proved",
   "theorems": [
    "C33_conditions_sufficient",
    "C33_active_features",
    "C33_stops_at_a_non_optimal_point_refuted",
    "C33_binary64_refuted"
   ],
   "note": "Finding: converged runs need not be optimal, in real arithmetic and in binary64."
  },
  {
   "property": "C34",
   "status": "proved",
   "theorems": [
    "C34_start_vector"
   ],
   "note": ""
  },
  {
   "property": "C35",
   "status": "proved",
   "theorems": [
    "C35_every_schedule",
    "C35_completes",
    "C35_shared_correction_refuted"
   ],
   "note": "Schedule independence for stateless corrections; with CLasso's shared state it fails (C35_shared_correction_refuted)."
  },
  {
   "property": "C36",
   "status": "proved",
   "theorems": [
    "C36_path_structure"
   ],
   "note": ""
  },
  {
   "property": "C37",
   "status": "proved",
   "theorems": [
    "C37_stationary",
    "C37_lasso_optimal",
    "C37_shrinkage",
    "C37_morse_penrose_is_exact"
   ],
   "note": "Real arithmetic. Zero columns (the bias column of normalised data) are allowed; the non-zero columns must be linearly independent."
  },
  {
   "property": "C38",
   "status": "proved",
   "theorems": [
    "C38_pseudo_inverse",
    "C38_pseudo_inverse_xtx",
    "C38_c_parameter",
    "C38_d_parameter",
    "C38_small_singular_value_refuted"
   ],
   "note": "The Moore-Penrose identities hold for the pseudo inverse, but MorsePenroseCD.C leaves small singular values un-inverted (C38_small_singular_value_refuted)."
  },
  {
   "property": "C39",
   "status": "proved",
   "theorems": [
    "C39_result",
    "C39_least_squares",
    "C39_stops",
    "C39_no_sooner",
    "C39_greedy",
    "C39_zero_first_column"
   ],
   "note": ""
  },
  {
   "property": "C40",
   "status": "proved",
   "theorems": [
    "C40_argmin",
    "C40_argmax",
    "C40_arg_corner_cases",
    "C40_abs",
    "C40_argsort",
    "C40_int_extrema",
    "C40_minfloat"
   ],
   "note": ""
  },
  {
   "property": "C41",
   "status": "proved",
   "theorems": [
    "C41_membership",
    "C41_union",
    "C41_equal_all_sum"
   ],
   "note": ""
  },
  {
   "property": "C42",
   "status": "proved",
   "theorems": [
    "C42_tuples_spec",
    "C42_iter_product_with_sharing",
    "C42_iter_product_upto_3",
    "C42_iter_product_refuted"
   ],
   "note": "Correct up to three positions, wrong from four on because append reuses a backing array (C42_iter_product_refuted)."
  },
  {
   "property": "C43",
   "status": "proved",
   "theorems": [
    "C43_monomials_upto_3",
    "C43_full_matrix",
    "C43_four_columns_refuted"
   ],
   "note": "Correct up to three columns, wrong from four on (C43_four_columns_refuted), a consequence of C42."
  },
  {
   "property": "C44",
   "status": "proved",
   "theorems": [
    "C44_rearrange",
    "C44_panics",
    "C44_gaps"
   ],
   "note": ""
  },
  {
   "property": "C45",
   "status": "proved",
   "theorems": [
    "C45_textbook",
    "C45_symmetric",
    "C45_range",
    "C45_equal_selections",
    "C45_corner_cases"
   ],
   "note": ""
  },
  {
   "property": "C46",
   "status": "proved",
   "theorems": [
    "C46_split",
    "C46_no_other_panic",
    "C46_every_schedule",
    "C46_completes",
    "C46_no_samples",
    "C46_schedule_dependent"
   ],
   "note": ""
  },
  {
   "property": "C47",
   "status": "proved",
   "theorems": [
    "C47_apply",
    "C47_not_positive_refuted",
    "C47_estimator"
   ],
   "note": "Thresholding can destroy positive semi-definiteness (C47_not_positive_refuted)."
  },
  {
   "property": "C48",
   "status": "proved",
   "theorems": [
    "C48_every_schedule",
    "C48_completes",
    "C48_schedule_independent",
    "C48_panics",
    "C48_no_samples",
    "C48_value",
    "C48_search"
   ],
   "note": ""
  },
  {
   "property": "C49",
   "status": "proved",
   "theorems": [
    "C49_partition",
    "C49_panics"
   ],
   "note": ""
  },
  {
   "property": "C50",
   "status": "proved",
   "theorems": [
    "C50_covariance",
    "C50_empirical",
    "C50_identity"
   ],
   "note": ""
  },
  {
   "property": "C51",
   "status": "proved",
   "theorems": [
    "C51_logspace",
    "C51_logspace_small"
   ],
   "note": ""
  },
  {
   "property": "C52",
   "status": "proved",
   "theorems": [
    "C52_weights",
    "C52_shift_invariant"
   ],
   "note": ""
  },
  {
   "property": "C53",
   "status": "proved",
   "theorems": [
    "C53_path_average",
    "C53_full_coeff",
    "C53_weighted_average",
    "C53_weighted_average_panics"
   ],
   "note": ""
  },
  {
   "property": "C54",
   "status": "proved",
   "theorems": [
    "C54_extract_path",
    "C54_most_relevant",
    "C54_extremes",
    "C54_plot_misses_largest",
    "C54_plot_empty_panics",
    "C54_entrance_times"
   ],
   "note": ""
  },
  {
   "property": "C55",
   "status": "proved",
   "theorems": [
    "C55_maps_by_name",
    "C55_first_round",
    "C55_target_not_last_refuted"
   ],
   "note": "Correct when the target column is the last one; otherwise wrong (C55_target_not_last_refuted)."
  },
  {
   "property": "C56",
   "status": "proved",
   "theorems": [
    "C56_linearizable",
    "C56_never_torn",
    "C56_no_deadlock"
   ],
   "note": ""
  },
  {
   "property": "C57",
   "status": "proved",
   "theorems": [
    "C57_alone",
    "C57_insert_while_saving_panics",
    "C57_append_while_saving_panics",
    "C57_file_alone",
    "C57_nonfinite_empties_file",
    "C57_perfect_fit_empties_file",
    "C57_null_unreadable",
    "C57_readable",
    "C57_null_in_file"
   ],
   "note": "Findings: saving while the search inserts can panic or write null entries; a list with a non-finite score leaves an empty file."
  },
  {
   "property": "C58",
   "status": "proved",
   "theorems": [
    "C58_elastic_net",
    "C58_classo",
    "C58_update",
    "C58_pure_and_panics"
   ],
   "note": ""
  },
  {
   "property": "C59",
   "status": "proved",
   "theorems": [
    "C59_hat_matrix",
    "C59_gcv_value",
    "C59_gcv_is_not_textbook_refuted"
   ],
   "note": "Gcv is not the textbook score (C59_gcv_is_not_textbook_refuted)."
  },
  {
   "property": "C60",
   "status": "proved",
   "theorems": [
    "C60_lars_ends"
   ],
   "note": ""
  },
  {
   "property": "C61",
   "status": "proved",
   "theorems": [
    "C61_criteria",
    "C61_unsorted_refuted"
   ],
   "note": "Correct for ascending selections, false for others (C61_unsorted_refuted)."
  },
  {
   "property": "C62",
   "status": "proved",
   "theorems": [
    "C62_nested",
    "C62_target_last"
   ],
   "note": ""
  },
  {
   "property": "C63",
   "status": "proved",
   "theorems": [
    "C63_ends",
    "C63_keep_below_one",
    "C63_keep_below_one_binary64",
    "C63_keep_one_refuted"
   ],
   "note": ""
  },
  {
   "property": "C64",
   "status": "proved",
   "theorems": [
    "C64_x0_ignored",
    "C64_kappa",
    "C64_classo",
    "C64_eta_has_no_effect"
   ],
   "note": ""
  },
  {
   "property": "C65",
   "status": "proved",
   "theorems": [
    "C65_constant_on_rows",
    "C65_lone_row",
    "C65_few_rows"
   ],
   "note": ""
  },
  {
   "property": "C66",
   "status": "proved",
   "theorems": [
    "C66_rows",
    "C66_grid",
    "C66_when_it_panics",
    "C66_range"
   ],
   "note": ""
  },
  {
   "property": "C67",
   "status": "proved",
   "theorems": [
    "C67_padded_cells_are_zero"
   ],
   "note": "Finding: the README example is read as zeros."
  },
  {
   "property": "C68",
   "status": "proved",
   "theorems": [
    "C68_lasso_file_roundtrip",
    "C68_nonfinite_refused"
   ],
   "note": ""
  },
  {
   "property": "C69",
   "status": "proved",
   "theorems": [
    "C69_table",
    "C69_missing_node_panics"
   ],
   "note": ""
  },
  {
   "property": "C70",
   "status": "proved",
   "theorems": [
    "C70_final_file",
    "C70_only_periodic_saves_panic",
    "C70_ends",
    "C70_periodic_save_panics"
   ],
   "note": "Finding: a periodic save may panic while the search inserts (C70_periodic_save_panics)."
  },
  {
   "property": "C71",
   "status": "proved",
   "theorems": [
    "C71_sasearch_file"
   ],
   "note": ""
  },
  {
   "property": "C72",
   "status": "proved",
   "theorems": [
    "C72_queue_size",
    "C72_negative_panics"
   ],
   "note": ""
  },
  {
   "property": "C73",
   "status": "proved",
   "theorems": [
    "C73_range_flags_ignored",
    "C73_documented_range_refuted"
   ],
   "note": "Finding: the flags are dead (C73_documented_range_refuted)."
  },
  {
   "property": "C74",
   "status": "proved",
   "theorems": [
    "C74_lars_command"
   ],
   "note": "Exact arithmetic (XR); the hypotheses of C37 on the decompositions and ties are inherited."
  },
  {
   "property": "C75",
   "status": "proved",
   "theorems": [
    "C75_unknown_covariance",
    "C75_unknown_algorithm",
    "C75_lars_ignores",
    "C75_nonfinite_penalty",
    "C75_nonpositive_limit"
   ],
   "note": "Finding: a misspelt -type overwrites the output with an empty result; a non-positive limit silently produces no file."
  },
  {
   "property": "C76",
   "status": "proved",
   "theorems": [
    "C76_uncorrelated",
    "C76_large_penalty",
    "C76_small_penalty"
   ],
   "note": "Finding: with an empty optimal model the change test is 0/0, so all maxIter passes are made and the warning is printed."
  },
  {
   "property": "C77",
   "status": "proved",
   "theorems": [
    "C77_cd_command"
   ],
   "note": ""
  },
  {
   "property": "C78",
   "status": "proved",
   "theorems": [
    "C78_starts",
    "C78_summary",
    "C78_never_finishes"
   ],
   "note": "C78_summary is for binary64, C78_never_finishes for exact arithmetic. Finding: a one-hot feature makes the program end in a panic."
  },
  {
   "property": "C79",
   "status": "proved",
   "theorems": [
    "C79_file",
    "C79_file_data",
    "C79_target_lost",
    "C79_scores_refuted"
   ],
   "note": "Finding: the file mixes standardised data with coefficients in original units, and its scores belong to neither (C79_scores_refuted)."
  },
  {
   "property": "C80",
   "status": "proved",
   "theorems": [
    "C80_quality",
    "C80_deviations",
    "C80_figures",
    "C80_perfect_fit",
    "C80_no_range",
    "C80_no_range_binary64",
    "C80_announced",
    "C80_no_models",
    "C80_lars_file",
    "C80_cd_file"
   ],
   "note": "C80_lars_file and C80_cd_file inherit the hypotheses of C74 and C77. math.Log10 is exact in the theorems over XR. Finding: a perfect model makes the program panic after the first figure (C80_perfect_fit); failures to save are not reported (C80_announced)."
  },
  {
   "property": "C81",
   "status": "proved",
   "theorems": [
    "C81_lars",
    "C81_lars_command",
    "C81_cd",
    "C81_cd_path"
   ],
   "note": "Exact arithmetic. For LARS the nonconstant columns must be linearly independent; both runs are assumed to return (C60 bounds the rounds)."
  },
  {
   "property": "C82",
   "status": "proved",
   "theorems": [
    "C82_conditions_sufficient",
    "C82_descent",
    "C82_active_features",
    "C82_uncorrelated",
    "C82_lost_feature",
    "C82_diverges",
    "C82_minimiser_refuted",
    "C82_bounded_refuted"
   ],
   "note": "exact arithmetic (XR); C82_minimiser_refuted and C82_bounded_refuted show what fails for a strength at or above the diagonal, C82_lost_feature and C82_diverges say when"
  },
  {
   "property": "C83",
   "status": "proved",
   "theorems": [
    "C83_parameters",
    "C83_no_start",
    "C83_file",
    "C83_optimum_lost",
    "C83_otherwise_optimal",
    "C83_five_rows"
   ],
   "note": "The inserts of the search and of the saving model are identified by an equation (same nodes in the same order). fit and bnd are arbitrary; the example uses the values computed from its data file."
  },
  {
   "property": "C84",
   "status": "proved",
   "theorems": [
    "C84_schedule",
    "C84_rate",
    "C84_bounded",
    "C84_returns",
    "C84_aicc",
    "C84_five_rows"
   ],
   "note": "The bound on the number of evaluations for general data is proved in exact arithmetic (XR); the schedule itself holds for any arithmetic, and the five-row case is proved in binary64."
  },
  {
   "property": "C85",
   "status": "proved",
   "theorems": [
    "C85_nodes_equal",
    "C85_new_nodes",
    "C85_symmetric",
    "C85_transitive_refuted",
    "C85_nan_coefficient",
    "C85_nan_score",
    "C85_equal_scores_refuted",
    "C85_highscore_equal",
    "C85_restored_is_equal",
    "C85_restored_full_list",
    "C85_symmetric_binary64",
    "C85_highscore_symmetric"
   ],
   "note": ""
  },
  {
   "property": "C86",
   "status": "proved",
   "theorems": [
    "C86_units",
    "C86_zero_points",
    "C86_same_selection",
    "C86_search",
    "C86_tiny_units_refuted"
   ],
   "note": "exact arithmetic; decompositions exact without singular values in (0, 1e-6] (the refuted theorem shows why)"
  },
  {
   "property": "C87",
   "status": "proved",
   "theorems": [
    "C87_units",
    "C87_best_k",
    "C87_sparsest"
   ],
   "note": "Exact arithmetic (XR); the decomposition is assumed exact and without singular values between 0 and the cut-off, see good_svd. The tolerance is an absolute error, so it is converted with the unit of the target."
  },
  {
   "property": "C88",
   "status": "proved",
   "theorems": [
    "C88_reported",
    "C88_exact",
    "C88_left_out",
    "C88_met_but_reported_refuted",
    "C88_unmet_but_silent_refuted",
    "C88_stops"
   ],
   "note": "The two refutations concern the documentation comment of the function (lassoCrdDesc.go:104), at the arguments LassoCrdDesc passes for a dataset with two rows and four columns."
  },
  {
   "property": "C89",
   "status": "proved",
   "theorems": [
    "C89_normalise",
    "C89_descent",
    "C89_path",
    "C89_original_units",
    "C89_lars",
    "C89_lars_refuted"
   ],
   "note": "Equality is up to the sign of zeros. Rounding to nearest even is symmetric, so the statement is exact in binary64. The order of summation of gonum's products is that of the model."
  },
  {
   "property": "C90",
   "status": "proved",
   "theorems": [
    "C90_nil",
    "C90_defaults_optimal",
    "C90_written",
    "C90_reused",
    "C90_other_width",
    "C90_shared_parameters_refuted"
   ],
   "note": "The last part of the wish - a struct can be shared between searches - is false when the numbers of features differ: C90_other_width in general, C90_shared_parameters_refuted for a concrete pair."
  },
  {
   "property": "C91",
   "status": "proved",
   "theorems": [
    "C91_elastic_net",
    "C91_new",
    "C91_bounded_refuted",
    "C91_tiny_refuted"
   ],
   "note": "The condition on the coefficients after every number of passes is a condition on the elastic net run alone, observable by varying maxIter. The refutations: no bound on the coefficients holds for a correction of strength 1 on the data of C82; coefficients near 1e-6 differ by a factor of two in binary64."
  },
  {
   "property": "C92",
   "status": "proved",
   "theorems": [
    "C92_nested",
    "C92_children",
    "C92_leaf",
    "C92_saturated_refuted"
   ],
   "note": "C92_saturated_refuted: the hypothesis on the largest model is needed."
  },
  {
   "property": "C93",
   "status": "proved",
   "theorems": [
    "C93_criteria",
    "C93_brute_force",
    "C93_search",
    "C93_cd_refuted"
   ],
   "note": "C93_cd_refuted: a binary64 run in which coordinate descent drops a feature in one order and keeps it in the other."
  },
  {
   "property": "C94",
   "status": "proved",
   "theorems": [
    "C94_aicc_aic",
    "C94_bic_aic",
    "C94_brute_force",
    "C94_exact_fit_refuted"
   ],
   "note": "C94_exact_fit_refuted: the hypothesis that the target is not fitted exactly is needed."
  },
  {
   "property": "C95",
   "status": "proved",
   "theorems": [
    "C95_zero_value",
    "C95_zero_equal",
    "C95_read",
    "C95_written",
    "C95_same"
   ],
   "note": "C95_same is the refinement between the two models."
  },
  {
   "property": "C96",
   "status": "proved",
   "theorems": [
    "C96_entries",
    "C96_nonempty",
    "C96_never_better"
   ],
   "note": "C96_never_better is over the reals and assumes no model fits exactly (the floor RssTol then only worsens the annealing's score)."
  },
  {
   "property": "C97",
   "status": "proved",
   "theorems": [
    "C97_same_prediction",
    "C97_uncorrelated"
   ],
   "note": "Real arithmetic. On correlated features coordinate descent can stop at a point that is not a minimiser (C33), so the agreement needs the minimiser as a hypothesis there."
  },
  {
   "property": "C98",
   "status": "proved",
   "theorems": [
    "C98_recovers",
    "C98_coherent_refuted"
   ],
   "note": "Real arithmetic. C98_coherent_refuted: three columns (3,0,0), (0,3,0), (2,2,1) and the target (3,3,0), with an exact decomposition of every sub-model exhibited."
  },
  {
   "property": "C99",
   "status": "proved",
   "theorems": [
    "C99_records",
    "C99_survive_iff",
    "C99_reader_ends",
    "C99_dataset",
    "C99_numbers_are_plain",
    "C99_names_refuted",
    "C99_windows",
    "C99_final_newline",
    "C99_bare_quote"
   ],
   "note": "encoding/csv (standard library) is transcribed from its documented source, not part of the repository."
  },
  {
   "property": "C100",
   "status": "proved",
   "theorems": [
    "C100_bnb",
    "C100_lasso",
    "C100_sasearch",
    "C100_single_dash",
    "C100_unknown_option",
    "C100_bad_value",
    "C100_documented_examples_refuted"
   ],
   "note": "cobra and pflag are transcribed external code; the documented examples are refuted (C100_documented_examples_refuted)."
  },
  {
   "property": "C101",
   "status": "proved",
   "theorems": [
    "C101_example",
    "C101_example_ties",
    "C101_all_models_wrong",
    "C101_linear_cubic",
    "C101_exponentials",
    "C101_order_refuted",
    "C101_mock"
   ],
   "note": "Real arithmetic. ExpectOrder is refuted for a one-point grid (C101_order_refuted)."
  },
  {
   "property": "C102",
   "status": "proved",
   "theorems": [
    "C102_determined",
    "C102_order",
    "C102_output",
    "C102_usage_error",
    "C102_missing_file",
    "C102_line_ends",
    "C102_saved",
    "C102_saved_sa",
    "C102_lars"
   ],
   "note": "goselect bnb is not included (C75 and C100 treat its parts). Writing the output does not change the CSV file in the model, so a run with --out equal to --csv is described up to that write."
  },
  {
   "property": "C103",
   "status": "proved",
   "theorems": [
    "C103_strings",
    "C103_documents",
    "C103_whole_file",
    "C103_reader_ends",
    "C103_integers",
    "C103_path_file",
    "C103_highscore_file",
    "C103_damaged_file",
    "C103_lasso_result",
    "C103_highscore_result",
    "C103_names_collide_refuted"
   ],
   "note": "encoding/json is transcribed from the Go standard library (Model_JSON.v), the structures field by field (Model_JSONFiles.v); printing and reading of floating point numbers (strconv) is a parameter with the hypothesis that printed numbers are JSON numbers and read back (met by C103_numbers). Finding: column names that are not UTF-8 (a CSV file in Latin-1) are changed by the JSON files and can collide (C103_names_collide_refuted)."
  },
  {
   "property": "C104",
   "status": "proved",
   "theorems": [
    "C104_any_text",
    "C104_written",
    "C104_path_rewritten",
    "C104_highscore_rewritten"
   ],
   "note": "encoding/json as transcribed in Model_JSON.v; the grammar in Spec_JSONText.v does not mention the reader. Texts with lone surrogates or bytes that are not UTF-8 are not in the relation (Go replaces them, see C103)."
  },
  {
   "property": "C105",
   "status": "proved",
   "theorems": [
    "C105_sasearch_file",
    "C105_figures",
    "C105_damaged_file",
    "C105_lasso_then_plot",
    "C105_other_files",
    "C105_repeat",
    "C105_data_kept_refuted"
   ],
   "note": "A write either replaces the whole file or does not happen; what Unmarshal leaves for JSON of another shape is a parameter. In repeated runs of sasearch the random numbers are the same. Finding: --out naming the CSV file destroys the data (C105_data_kept_refuted)."
  },
  {
   "property": "C106",
   "status": "proved",
   "theorems": [
    "C106_accepted",
    "C106_refused",
    "C106_meaning",
    "C106_files"
   ],
   "note": "The meaning is stated for documents without U+FFFD because lone surrogates and bytes that are not UTF-8 are in the grammar and are read as U+FFFD. encoding/json's limit of 10000 nested brackets is not modelled."
  },
  {
   "property": "C107",
   "status": "proved",
   "theorems": [
    "C107_started",
    "C107_no_data",
    "C107_finished",
    "C107_optimum",
    "C107_data_kept_refuted",
    "C107_at_any_time"
   ],
   "note": "binary64. Writes are atomic. The fit of a model and the bounds are parameters with the hypotheses of C14. Finding: --out naming the CSV file destroys the data (C107_data_kept_refuted)."
  },
  {
   "property": "C108",
   "status": "proved",
   "theorems": [
    "C108_command_first",
    "C108_config",
    "C108_refused_first",
    "C108_config_ignored",
    "C108_options_before",
    "C108_toggle",
    "C108_no_command",
    "C108_value_named_as_command_refuted",
    "C108_only_named",
    "C108_no_home"
   ],
   "note": "C108_value_named_as_command_refuted: goselect --out bnb --csv data.csv bnb reads no file and writes to --csv."
  }
 ]
}