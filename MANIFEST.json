{
 "claims": [
  {
   "property": "C01",
   "status": "proved",
   "theorems": [
    "C01_remove_node",
    "C01_remove_sequence"
   ],
   "note": ""
  },
  {
   "property": "C02",
   "status": "proved",
   "theorems": [
    "C02_graph_lookups",
    "C02_graph_lookups_after_removal",
    "C02_graph_positions_refuted",
    "C02_node_id_positions",
    "C02_lookups_agree",
    "C02_after_removal",
    "C02_roundtrip_refuted"
   ],
   "note": ""
  },
  {
   "property": "C03",
   "status": "proved",
   "theorems": [
    "C03_eq_is_equivalence",
    "C03_eq_meaning",
    "C03_congruence_refuted"
   ],
   "note": ""
  },
  {
   "property": "C04",
   "status": "proved",
   "theorems": [
    "C04_edge_list_is_a_multiset",
    "C04_remove_edge_outcome"
   ],
   "note": ""
  },
  {
   "property": "C05",
   "status": "proved",
   "theorems": [
    "C05_edge_set_refinement"
   ],
   "note": ""
  },
  {
   "property": "C06",
   "status": "proved",
   "theorems": [
    "C06_ordered_parents",
    "C06_order_independent"
   ],
   "note": ""
  },
  {
   "property": "C07",
   "status": "proved",
   "theorems": [
    "C07_fast_init_idempotent",
    "C07_fast_init_after_removal"
   ],
   "note": ""
  },
  {
   "property": "C08",
   "status": "proved",
   "theorems": [
    "C08_table_size",
    "C08_table_iff",
    "C08_rows_are_configurations",
    "C08_unequal_cardinalities_refuted"
   ],
   "note": ""
  },
  {
   "property": "C09",
   "status": "proved",
   "theorems": [
    "C09_filtering"
   ],
   "note": ""
  },
  {
   "property": "C10",
   "status": "proved",
   "theorems": [
    "C10_residence_times"
   ],
   "note": ""
  },
  {
   "property": "C11",
   "status": "proved",
   "theorems": [
    "C11_transition_counts"
   ],
   "note": ""
  },
  {
   "property": "C12",
   "status": "proved",
   "theorems": [
    "C12_index_agrees_iff",
    "C12_residence_times_correct_iff",
    "C12_silently_wrong_refuted",
    "C12_raises_refuted"
   ],
   "note": ""
  },
  {
   "property": "C13",
   "status": "proved",
   "theorems": [
    "C13_time_conserved"
   ],
   "note": ""
  },
  {
   "property": "C14",
   "status": "proved",
   "theorems": [
    "C14_row_order_irrelevant"
   ],
   "note": ""
  },
  {
   "property": "C15",
   "status": "proved",
   "theorems": [
    "C15_coefficients",
    "C15_row_sum",
    "C15_not_a_generator_refuted"
   ],
   "note": ""
  },
  {
   "property": "C16",
   "status": "proved",
   "theorems": [
    "C16_end_to_end"
   ],
   "note": ""
  },
  {
   "property": "C17",
   "status": "proved",
   "theorems": [
    "C17_cache_is_a_first_write_wins_map",
    "C17_every_history_has_a_last_segment"
   ],
   "note": ""
  },
  {
   "property": "C18",
   "status": "proved",
   "theorems": [
    "C18_separating_sets"
   ],
   "note": ""
  },
  {
   "property": "C19",
   "status": "proved",
   "theorems": [
    "C19_independence_test_pairs",
    "C19_warm_cache_same_answer",
    "C19_any_cardinalities"
   ],
   "note": ""
  },
  {
   "property": "C20",
   "status": "proved",
   "theorems": [
    "C20_cache_never_crashes_the_search"
   ],
   "note": ""
  },
  {
   "property": "C21",
   "status": "proved",
   "theorems": [
    "C21_search_terminates",
    "C21_round_bound",
    "C21_optimize_structure_terminates"
   ],
   "note": ""
  },
  {
   "property": "C22",
   "status": "proved",
   "theorems": [
    "C22_kept_and_removed_are_justified"
   ],
   "note": ""
  },
  {
   "property": "C23",
   "status": "proved",
   "theorems": [
    "C23_known_edges_are_kept"
   ],
   "note": ""
  },
  {
   "property": "C24",
   "status": "proved",
   "theorems": [
    "C24_results_are_well_formed",
    "C24_estimation_succeeds"
   ],
   "note": ""
  },
  {
   "property": "C25",
   "status": "proved",
   "theorems": [
    "C25_modes_agree",
    "C25_any_worker_schedule"
   ],
   "note": ""
  },
  {
   "property": "C26",
   "status": "proved",
   "theorems": [
    "C26_marks_are_never_undone",
    "C26_pool_is_repeatable",
    "C26_sequential_rerun_differs"
   ],
   "note": ""
  },
  {
   "property": "C27",
   "status": "proved",
   "theorems": [
    "C27_statistic_is_Pearsons",
    "C27_statistic_nonnegative",
    "C27_statistic_symmetric",
    "C27_statistic_zero_iff_proportional",
    "C27_proportional_rows_never_reject",
    "C27_estimated_cims_qualify"
   ],
   "note": ""
  },
  {
   "property": "C28",
   "status": "proved",
   "theorems": [
    "C28_hill_climbing_fam_score",
    "C28_tabu_search_fam_score",
    "C28_hill_climbing_never_worse",
    "C28_tabu_search_never_worse",
    "C28_hill_climbing_moves",
    "C28_tabu_search_moves"
   ],
   "note": ""
  },
  {
   "property": "C29",
   "status": "proved",
   "theorems": [
    "C29_hill_climbing_max_parents",
    "C29_tabu_search_max_parents"
   ],
   "note": ""
  },
  {
   "property": "C30",
   "status": "proved",
   "theorems": [
    "C30_hill_climbing_keeps_known_edges",
    "C30_tabu_search_keeps_known_edges",
    "C30_known_edge_evicted",
    "C30_known_edge_evicted_tabu"
   ],
   "note": ""
  },
  {
   "property": "C31",
   "status": "proved",
   "theorems": [
    "C31_hill_climbing_edges",
    "C31_tabu_search_edges"
   ],
   "note": ""
  },
  {
   "property": "C32",
   "status": "proved",
   "theorems": [
    "C32_hill_climbing_stops",
    "C32_tabu_search_stops"
   ],
   "note": ""
  },
  {
   "property": "C33",
   "status": "proved",
   "theorems": [
    "C33_fam_scores_computable",
    "C33_estimate_structure_returns",
    "C33_whole_call_failures",
    "C33_no_candidate_blocks",
    "C33_no_candidate_raises",
    "C33_score_based_returns",
    "C33_hill_climbing_returns",
    "C33_hill_climbing_fails_only_with_IndexError",
    "C33_hill_climbing_no_candidate",
    "C33_hill_climbing_max_parents_zero",
    "C33_tabu_search_returns",
    "C33_tabu_search_failures",
    "C33_tabu_search_no_candidate_blocks",
    "C33_tabu_search_length_zero_blocks",
    "C33_tabu_search_duration_zero",
    "C33_tabu_search_max_parents_zero",
    "C33_scores_computable"
   ],
   "note": ""
  },
  {
   "property": "C34",
   "status": "proved",
   "theorems": [
    "C34_tabu_list",
    "C34_no_KeyError"
   ],
   "note": ""
  },
  {
   "property": "C35",
   "status": "proved",
   "theorems": [
    "C35_fam_score_is_log_marginal_likelihood",
    "C35_statistics_come_from_histories",
    "C35_score_of_data",
    "C35_binary_dirichlet_part_is_zero"
   ],
   "note": ""
  },
  {
   "property": "C36",
   "status": "proved",
   "theorems": [
    "C36_order_of_configurations_irrelevant",
    "C36_single_state_fails",
    "C36_no_configuration_fails",
    "C36_several_states_never_fail"
   ],
   "note": ""
  },
  {
   "property": "C37",
   "status": "proved",
   "theorems": [
    "C37_adjacency_constraint_based",
    "C37_adjacency_score_based",
    "C37_adjacency_matrix",
    "C37_adjacency_matrix_raises"
   ],
   "note": ""
  },
  {
   "property": "C38",
   "status": "proved",
   "theorems": [
    "C38_never_spurious_constraint_based",
    "C38_never_spurious_score_based",
    "C38_lists_missing_edges",
    "C38_new_estimator"
   ],
   "note": ""
  },
  {
   "property": "C39",
   "status": "proved",
   "theorems": [
    "C39_optimizer_choice",
    "C39_union_of_searches",
    "C39_precision_recall",
    "C39_pool_then_sequential",
    "C39_sequential_then_pool",
    "C39_edges_of_the_structure",
    "C39_parents_of_each_node",
    "C39_max_parents",
    "C39_known_edges_kept",
    "C39_new_estimator",
    "C39_second_call_prints_an_error"
   ],
   "note": ""
  },
  {
   "property": "C40",
   "status": "proved",
   "theorems": [
    "C40_initial_graph",
    "C40_prior_matrix",
    "C40_before_estimation"
   ],
   "note": ""
  },
  {
   "property": "C41",
   "status": "proved",
   "theorems": [
    "C41_saved_results_constraint_based",
    "C41_saved_results_score_based",
    "C41_read_back"
   ],
   "note": ""
  },
  {
   "property": "C42",
   "status": "proved",
   "theorems": [
    "C42_row_delta"
   ],
   "note": ""
  },
  {
   "property": "C43",
   "status": "proved",
   "theorems": [
    "C43_number_of_rows",
    "C43_concatenation"
   ],
   "note": ""
  },
  {
   "property": "C44",
   "status": "proved",
   "theorems": [
    "C44_first_column_differenced",
    "C44_shifted_column_overwrites",
    "C44_other_time_key_raises"
   ],
   "note": ""
  },
  {
   "property": "C45",
   "status": "proved",
   "theorems": [
    "C45_accepts_iff",
    "C45_trajectories_consumed",
    "C45_not_imported_accepted_refuted"
   ],
   "note": ""
  },
  {
   "property": "C46",
   "status": "proved",
   "theorems": [
    "C46_build_structure",
    "C46_prior_flag",
    "C46_prior_flag_import"
   ],
   "note": ""
  },
  {
   "property": "C47",
   "status": "proved",
   "theorems": [
    "C47_no_self_loops",
    "C47_fixed_count",
    "C47_fixed_not_integer",
    "C47_fixed_int_density_refuted",
    "C47_random_edges",
    "C47_random_bad_density"
   ],
   "note": ""
  },
  {
   "property": "C48",
   "status": "proved",
   "theorems": [
    "C48_generated_cims",
    "C48_row",
    "C48_no_graph_no_cims",
    "C48_documented_range_refuted"
   ],
   "note": ""
  },
  {
   "property": "C49",
   "status": "proved",
   "theorems": [
    "C49_generated_networks_can_be_sampled",
    "C49_trajectory_shape",
    "C49_number_of_rows"
   ],
   "note": ""
  },
  {
   "property": "C50",
   "status": "proved",
   "theorems": [
    "C50_transition_limit",
    "C50_time_limit",
    "C50_no_limits_never_returns",
    "C50_no_limits_runs_forever",
    "C50_end_time_terminates",
    "C50_zero_draws_never_end",
    "C50_result_independent_of_fuel"
   ],
   "note": ""
  },
  {
   "property": "C51",
   "status": "proved",
   "theorems": [
    "C51_first_event",
    "C51_race",
    "C51_scale_is_not_rate"
   ],
   "note": ""
  },
  {
   "property": "C52",
   "status": "proved",
   "theorems": [
    "C52_selected_cim",
    "C52_positions_distinct",
    "C52_mixed_cardinalities_refuted"
   ],
   "note": ""
  },
  {
   "property": "C53",
   "status": "proved",
   "theorems": [
    "C53_one_result_per_request",
    "C53_every_order_possible",
    "C53_duplicated_randomness",
    "C53_second_call_repeats",
    "C53_crashed_workers",
    "C53_no_deadlock",
    "C53_return_is_final",
    "C53_requests",
    "C53_max_trs"
   ],
   "note": ""
  },
  {
   "property": "C54",
   "status": "proved",
   "theorems": [
    "C54_read_back_as_leading_digits",
    "C54_no_parents",
    "C54_keys_distinct",
    "C54_leading_digit_unique"
   ],
   "note": ""
  },
  {
   "property": "C55",
   "status": "proved",
   "theorems": [
    "C55_reload_is_exact",
    "C55_same_cim_for_every_configuration",
    "C55_same_trajectories",
    "C55_large_states_refuted",
    "C55_large_states_one_parent",
    "C55_no_edges_refuted"
   ],
   "note": ""
  },
  {
   "property": "C56",
   "status": "proved",
   "theorems": [
    "C56_cache_is_not_keyed_by_child",
    "C56_stale_answer_witness"
   ],
   "note": ""
  },
  {
   "property": "C57",
   "status": "proved",
   "theorems": [
    "C57_structure_edges_always_returned",
    "C57_max_parents_exceeded"
   ],
   "note": ""
  },
  {
   "property": "C58",
   "status": "proved",
   "theorems": [
    "C58_unseen_destination_disables",
    "C58_no_exits_disable_both_steps",
    "C58_opposite_rows_pass"
   ],
   "note": ""
  },
  {
   "property": "C59",
   "status": "proved",
   "theorems": [
    "C59_chi_square_never_rejects_for_binary_variables",
    "C59_binary_decision_is_the_exponential_test"
   ],
   "note": ""
  },
  {
   "property": "C60",
   "status": "proved",
   "theorems": [
    "C60_single_transition",
    "C60_equal_rates_rejected"
   ],
   "note": ""
  },
  {
   "property": "C61",
   "status": "proved",
   "theorems": [
    "C61_pairs_that_pass",
    "C61_order_of_the_cims_irrelevant",
    "C61_identical_cims_pass",
    "C61_independence_test_on_data"
   ],
   "note": ""
  },
  {
   "property": "C62",
   "status": "proved",
   "theorems": [
    "C62_one_variable",
    "C62_exact_recovery",
    "C62_binary_variables",
    "C62_on_the_data",
    "C62_one_test_on_the_data"
   ],
   "note": ""
  },
  {
   "property": "C63",
   "status": "proved",
   "theorems": [
    "C63_hill_climbing_certificate",
    "C63_tabu_search_certificate",
    "C63_tabu_search_round_robin",
    "C63_tabu_search_locally_optimal",
    "C63_tabu_search_early_stop",
    "C63_tabu_search_enough_iterations",
    "C63_hill_climbing_may_stop_short"
   ],
   "note": ""
  },
  {
   "property": "C64",
   "status": "proved",
   "theorems": [
    "C64_same_parameters",
    "C64_import_succeeds",
    "C64_additive",
    "C64_time_unit"
   ],
   "note": ""
  },
  {
   "property": "C65",
   "status": "proved",
   "theorems": [
    "C65_same_structure_constraint_based",
    "C65_same_structure_score_based",
    "C65_row_order_constraint_based",
    "C65_row_order_score_based"
   ],
   "note": ""
  },
  {
   "property": "C66",
   "status": "proved",
   "theorems": [
    "C66_round_trip",
    "C66_sampled_cims",
    "C66_index",
    "C66_index_out_of_range",
    "C66_missing_samples",
    "C66_no_trajectories_refuted",
    "C66_empty_first_trajectory_refuted",
    "C66_empty_trajectory_refuted",
    "C66_index_positions",
    "C66_without_cims",
    "C66_with_cims"
   ],
   "note": ""
  },
  {
   "property": "C67",
   "status": "proved",
   "theorems": [
    "C67_full_cycle",
    "C67_last_transition_lost"
   ],
   "note": ""
  },
  {
   "property": "C68",
   "status": "proved",
   "theorems": [
    "C68_every_change_counted_once"
   ],
   "note": ""
  },
  {
   "property": "C69",
   "status": "proved",
   "theorems": [
    "C69_float_parameters",
    "C69_agrees_with_exact",
    "C69_signs",
    "C69_exactness_refuted"
   ],
   "note": ""
  },
  {
   "property": "C70",
   "status": "proved",
   "theorems": [
    "C70_parameters_of_any_data",
    "C70_time_conserved",
    "C70_no_parents",
    "C70_in_range_data_never_refused_iff",
    "C70_one_parent",
    "C70_bad_states_unnoticed_refuted"
   ],
   "note": ""
  },
  {
   "property": "C71",
   "status": "proved",
   "theorems": [
    "C71_any_history",
    "C71_results_never_change",
    "C71_returned_once",
    "C71_fast_init_needed",
    "C71_second_compute",
    "C71_graph_first",
    "C71_initialise_again",
    "C71_wrong_node_unnoticed_refuted"
   ],
   "note": ""
  },
  {
   "property": "C72",
   "status": "proved",
   "theorems": [
    "C72_redundant_never_kept",
    "C72_binary",
    "C72_constants_and_copies",
    "C72_the_tests_qualify",
    "C72_column_order_matters_refuted"
   ],
   "note": ""
  },
  {
   "property": "C73",
   "status": "proved",
   "theorems": [
    "C73_parameters",
    "C73_constraint_based",
    "C73_reports",
    "C73_score_based",
    "C73_new_names"
   ],
   "note": ""
  },
  {
   "property": "C74",
   "status": "proved",
   "theorems": [
    "C74_score_shift",
    "C74_score_based",
    "C74_intensities_keep_no_unit",
    "C74_constraint_based_depends_on_the_unit"
   ],
   "note": ""
  },
  {
   "property": "C75",
   "status": "proved",
   "theorems": [
    "C75_parameters",
    "C75_score_based",
    "C75_single_test",
    "C75_constraint_based",
    "C75_constraint_based_depends_on_the_coding"
   ],
   "note": ""
  },
  {
   "property": "C76",
   "status": "proved",
   "theorems": [
    "C76_score_unchanged",
    "C76_redundant_never_reported",
    "C76_one_of_two_copies",
    "C76_found_first_stays_refuted",
    "C76_constant_replaces_known_parent_refuted"
   ],
   "note": ""
  },
  {
   "property": "C77",
   "status": "proved",
   "theorems": [
    "C77_single_test",
    "C77_edges_added_by_a_lower_level",
    "C77_separated_stays_separated",
    "C77_two_variables",
    "C77_a_lower_level_can_add_an_edge"
   ],
   "note": ""
  },
  {
   "property": "C78",
   "status": "proved",
   "theorems": [
    "C78_reader",
    "C78_dump_load",
    "C78_no_confusion",
    "C78_unreadable_file",
    "C78_exported_file",
    "C78_file_round_trip",
    "C78_saved_structure"
   ],
   "note": ""
  },
  {
   "property": "C79",
   "status": "proved",
   "theorems": [
    "C79_cut_text",
    "C79_exception_first",
    "C79_interrupted_write",
    "C79_histories",
    "C79_not_atomic_refuted"
   ],
   "note": ""
  },
  {
   "property": "C80",
   "status": "proved",
   "theorems": [
    "C80_header",
    "C80_parameters",
    "C80_single_test",
    "C80_score_based",
    "C80_own_header",
    "C80_unknown_column",
    "C80_empty_header"
   ],
   "note": ""
  },
  {
   "property": "C81",
   "status": "proved",
   "theorems": [
    "C81_algorithm",
    "C81_every_call"
   ],
   "note": ""
  },
  {
   "property": "C82",
   "status": "proved",
   "theorems": [
    "C82_unrelated",
    "C82_constant_variables"
   ],
   "note": ""
  },
  {
   "property": "C83",
   "status": "proved",
   "theorems": [
    "C83_no_call_raises",
    "C83_pool_leaves_no_trace",
    "C83_few_changes",
    "C83_settles",
    "C83_protected_for_lack_of_data",
    "C83_binary"
   ],
   "note": ""
  },
  {
   "property": "C84",
   "status": "proved",
   "theorems": [
    "C84_isolation",
    "C84_score_based_memoryless",
    "C84_latest_answer",
    "C84_always_answers",
    "C84_structure_erased",
    "C84_scores_printed_once",
    "C84_spurious_edges_empty",
    "C84_parameters",
    "C84_constraint_based_alone"
   ],
   "note": ""
  },
  {
   "property": "C85",
   "status": "proved",
   "theorems": [
    "C85_weighted_average",
    "C85_error",
    "C85_enough_data",
    "C85_two_data_sets",
    "C85_copies",
    "C85_converges",
    "C85_never_seen",
    "C85_signs",
    "C85_likelihood",
    "C85_learned"
   ],
   "note": ""
  },
  {
   "property": "C86",
   "status": "proved",
   "theorems": [
    "C86_watching",
    "C86_questions",
    "C86_protected_untested",
    "C86_small_first",
    "C86_separated_gone",
    "C86_parents",
    "C86_parents_tested",
    "C86_at_most",
    "C86_after_small_tests",
    "C86_sparse",
    "C86_at_least",
    "C86_worst_case",
    "C86_estimations",
    "C86_run"
   ],
   "note": ""
  },
  {
   "property": "C87",
   "status": "proved",
   "theorems": [
    "C87_score_never_rises",
    "C87_score_based",
    "C87_binary",
    "C87_test_gives_up",
    "C87_missing_edge",
    "C87_all_reported",
    "C87_three_states"
   ],
   "note": ""
  },
  {
   "property": "C88",
   "status": "proved",
   "theorems": [
    "C88_dependence_pays",
    "C88_independence_costs",
    "C88_constant_neutral",
    "C88_search_result",
    "C88_unique_best",
    "C88_exact_recovery",
    "C88_exact_network"
   ],
   "note": ""
  },
  {
   "property": "C89",
   "status": "proved",
   "theorems": [
    "C89_tests_decide_dependence",
    "C89_search_result",
    "C89_exact_recovery",
    "C89_exact_network",
    "C89_invisible_alone",
    "C89_estimators_agree"
   ],
   "note": ""
  },
  {
   "property": "C90",
   "status": "proved",
   "theorems": [
    "C90_visible_is_dependence",
    "C90_dependence_is_visible",
    "C90_what_tests_answer",
    "C90_answer_settles",
    "C90_search_result",
    "C90_blind_spot",
    "C90_silence_adds_parents",
    "C90_exact_recovery"
   ],
   "note": ""
  },
  {
   "property": "C91",
   "status": "proved",
   "theorems": [
    "C91_hill_climbing_goes_on",
    "C91_tabu_search_goes_on",
    "C91_patience_without_effect",
    "C91_max_parents_without_effect",
    "C91_tabu_length_without_effect",
    "C91_estimate_structure_without_effect"
   ],
   "note": ""
  },
  {
   "property": "C92",
   "status": "proved",
   "theorems": [
    "C92_known_edges_it_would_find",
    "C92_result_given_back",
    "C92_hill_climbing_again",
    "C92_tabu_search_again",
    "C92_another_known_edge_refuted"
   ],
   "note": ""
  },
  {
   "property": "C93",
   "status": "proved",
   "theorems": [
    "C93_structures_are_separate",
    "C93_graphs_are_separate",
    "C93_remove_node",
    "C93_lost_label",
    "C93_edge_calls",
    "C93_graph_calls",
    "C93_graph_remove_node",
    "C93_second_graph_on_the_same_structure",
    "C93_tests_touch_nothing_else",
    "C93_generated_graphs_refuted"
   ],
   "note": ""
  },
  {
   "property": "C94",
   "status": "proved",
   "theorems": [
    "C94_switched_off",
    "C94_switched_off_repeatable",
    "C94_high_threshold",
    "C94_single_test",
    "C94_gives_up_more",
    "C94_no_effect",
    "C94_no_effect_when_off",
    "C94_lost_edge",
    "C94_two_variables",
    "C94_a_higher_threshold_can_lose_an_edge"
   ],
   "note": ""
  },
  {
   "property": "C95",
   "status": "proved",
   "theorems": [
    "C95_exact_data",
    "C95_labels_irrelevant_iff",
    "C95_distinct_labels",
    "C95_lost_steps",
    "C95_constant_label_refused"
   ],
   "note": ""
  },
  {
   "property": "C96",
   "status": "proved",
   "theorems": [
    "C96_exact_data",
    "C96_right_iff_no_clash",
    "C96_good_names",
    "C96_looks_predicted"
   ],
   "note": ""
  },
  {
   "property": "C97",
   "status": "proved",
   "theorems": [
    "C97_only_the_trajectories_matter",
    "C97_same_as_plain",
    "C97_missing_variable",
    "C97_time_name",
    "C97_plain_holds"
   ],
   "note": ""
  },
  {
   "property": "C98",
   "status": "proved",
   "theorems": [
    "C98_parameters",
    "C98_chi_square_switched_off",
    "C98_one_state_too_many",
    "C98_only_exit_rates_count",
    "C98_a_rejection_is_lost"
   ],
   "note": ""
  },
  {
   "property": "C99",
   "status": "proved",
   "theorems": [
    "C99_score",
    "C99_score_drops",
    "C99_drop_is_bounded",
    "C99_clear_winners_stay"
   ],
   "note": ""
  }
 ]
}