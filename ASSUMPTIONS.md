# What `Print Assumptions` lists for each theorem

Generated by tools/gen_assumptions.py.

## Closed under the global context (171 theorems)

* `C01_arraylist_is_a_sequence` (`PropCollections.v`)
* `C02_arraylist_memory_safe` (`PropCollections.v`)
* `C02_insert_past_end_refuted` (`PropCollections.v`)
* `C02_clear_resize_refuted` (`PropCollections.v`)
* `C03_set_is_a_sorted_finite_set` (`PropCollections.v`)
* `C04_insert_order_irrelevant` (`PropCollections.v`)
* `C05_cleared_set_overflows_refuted` (`PropCollections.v`)
* `C05_cleared_hashtable_overflows_refuted` (`PropMap.v`)
* `C06_hashtable_is_a_finite_map` (`PropMap.v`)
* `C07_removals_without_long_chains` (`PropMap.v`)
* `C07_single_removal` (`PropMap.v`)
* `C07_second_removal_loses_keys_refuted` (`PropMap.v`)
* `C08_removed_value` (`PropMap.v`)
* `C08_wide_value_truncated_refuted` (`PropMap.v`)
* `C09_clear_destroys_each_value_once` (`PropMap.v`)
* `C09_key_destroyed_twice_refuted` (`PropMap.v`)
* `C10_linkedlist_is_a_sequence` (`PropLinked.v`)
* `C10_remove_last_refuted` (`PropLinked.v`)
* `C10_remove_middle_refuted` (`PropLinked.v`)
* `C101_without_races_the_schedule_does_not_matter` (`PropLoops.v`)
* `C101_point_loops` (`PropLoops.v`)
* `C101_races_refuted` (`PropLoops.v`)
* `C101_lost_offset_refuted` (`PropLoops.v`)
* `C101_region_stores` (`PropLoops.v`)
* `C102_labels_can_be_read_back` (`PropReadBack.v`)
* `C102_sizes_can_be_read_back` (`PropReadBack.v`)
* `C102_c_and_cpp_print_the_same` (`PropReadBack.v`)
* `C102_labels_can_be_read_back_from_c` (`PropReadBack.v`)
* `C102_graph_components` (`PropReadBack.v`)
* `C103_list_or_null` (`PropOom.v`)
* `C103_list_calls_until_refused` (`PropOom.v`)
* `C103_refused_append_keeps_the_list_refuted` (`PropOom.v`)
* `C103_set_calls_until_refused` (`PropOom.v`)
* `C103_refused_clear_refuted` (`PropOom.v`)
* `C103_granted_clear` (`PropOom.v`)
* `C103_linked_list_additions` (`PropOom.v`)
* `C103_linked_list_data_refuted` (`PropOom.v`)
* `C103_table_or_null` (`PropOom.v`)
* `C103_tables_while_memory_lasts` (`PropOom.v`)
* `C103_refused_insertion_refuted` (`PropOom.v`)
* `C103_objects` (`PropOom.v`)
* `C103_clusters` (`PropOom.v`)
* `C103_graph_while_memory_lasts` (`PropOom.v`)
* `C103_graph_refusals` (`PropOom.v`)
* `C103_null_graph_keeps_nothing_refuted` (`PropOom.v`)
* `C103_graph_has_its_edges_refuted` (`PropOom.v`)
* `C105_reads_words` (`PropSample.v`)
* `C105_reads_tables` (`PropSample.v`)
* `C105_any_file` (`PropSample.v`)
* `C105_blank_line_refuted` (`PropSample.v`)
* `C105_long_line_refuted` (`PropSample.v`)
* `C105_all_files_refuted` (`PropSample.v`)
* `C105_odd_bytes_refuted` (`PropSample.v`)
* `C11_find_prime_less_than` (`PropPrimes.v`)
* `C11_missed_primes_refuted` (`PropPrimes.v`)
* `C11_at_least_one_bucket` (`PropPrimes.v`)
* `C12_get_prime_value` (`PropPrimes.v`)
* `C12_get_prime_refuted` (`PropPrimes.v`)
* `C13_integer_compare` (`PropUtils.v`)
* `C13_double_compare` (`PropUtils.v`)
* `C13_double_compare_nan_refuted` (`PropUtils.v`)
* `C13_outlier_compare` (`PropUtils.v`)
* `C13_outlier_compare_refuted` (`PropUtils.v`)
* `C13_cluster_compare` (`PropUtils.v`)
* `C13_hash_in_range` (`PropUtils.v`)
* `C13_equal_keys_hash_equally` (`PropUtils.v`)
* `C13_double_hash_refuted` (`PropUtils.v`)
* `C13_library_tables_qualify` (`PropUtils.v`)
* `C14_condensed_layout` (`PropDistance.v`)
* `C16_core_schedule_independent` (`PropDistance.v`)
* `C17_core_distance_kth_smallest` (`PropDistance.v`)
* `C17_ties_refuted` (`PropDistance.v`)
* `C17_ties_too_large_refuted` (`PropDistance.v`)
* `C18_core_distance_finite` (`PropDistance.v`)
* `C18_sentinel_iff_too_few_neighbours` (`PropDistance.v`)
* `C19_init_rejects` (`PropRun.v`)
* `C19_no_self_edges_refuted` (`PropMst.v`)
* `C20_spanning_tree_construction` (`PropMst.v`)
* `C21_tree_preserves_density_connectivity` (`PropMst.v`)
* `C22_no_finite_reachability_no_tree` (`PropMst.v`)
* `C22_min_points_exceeds_rows` (`PropMst.v`)
* `C23_quicksort_by_edge_weight` (`PropGraph.v`)
* `C23_graph_quicksort` (`PropGraph.v`)
* `C24_adjacency_matches_edges` (`PropGraph.v`)
* `C24_remove_edge` (`PropGraph.v`)
* `C24_double_self_loop_refuted` (`PropGraph.v`)
* `C39_every_schedule` (`PropRace.v`)
* `C39_one_thread` (`PropRace.v`)
* `C39_offset_race_refuted` (`PropRace.v`)
* `C39_lost_offset_loses_the_cluster` (`PropRace.v`)
* `C42_cluster_map_is_the_partition` (`PropClusterMap.v`)
* `C42_short_ranges_abort` (`PropClusterMap.v`)
* `C43_min_max_distances` (`PropMinMax.v`)
* `C43_order_dependent_refuted` (`PropMinMax.v`)
* `C46_validity_score` (`PropStats.v`)
* `C47_tandem_quicksort` (`PropTandem.v`)
* `C47_nan_pivot_never_terminates_refuted` (`PropTandem.v`)
* `C49_all_labels_by_confidence` (`PropStats.v`)
* `C49_empty_map_aborts` (`PropStats.v`)
* `C49_supplied_list_uses_other_confidences` (`PropStats.v`)
* `C49_supplied_list_refuted` (`PropStats.v`)
* `C49_nan_confidences_never_terminate_refuted` (`PropStats.v`)
* `C54_every_block_is_freed_once` (`PropLife.v`)
* `C54_not_run_refuted` (`PropLife.v`)
* `C54_rerun_after_clean_refuted` (`PropLife.v`)
* `C54_second_run_leaks_refuted` (`PropLife.v`)
* `C54_destroy_of_foreign_object_refuted` (`PropLife.v`)
* `C58_cpp_cluster_map_is_the_partition` (`PropCpp.v`)
* `C58_same_map_as_c` (`PropCpp.v`)
* `C58_large_labels_in_another_order_refuted` (`PropCpp.v`)
* `C59_cpp_min_max_distances` (`PropCpp.v`)
* `C59_empty_map_refuted` (`PropCpp.v`)
* `C60_cpp_sort_by_similarity` (`PropCpp.v`)
* `C60_c_and_cpp_disagree` (`PropCpp.v`)
* `C68_integer_tables` (`PropTable.v`)
* `C68_removed_value_by_type` (`PropTable.v`)
* `C68_pointer_values` (`PropTable.v`)
* `C68_pointer_keys_refuted` (`PropTable.v`)
* `C71_java_cluster_map` (`PropJava.v`)
* `C72_delete_after_constructor_refuted` (`PropPython.v`)
* `C72_rejected_constructor_refuted` (`PropPython.v`)
* `C73_validity_of_results` (`PropPointers.v`)
* `C77_text_of_an_integer` (`PropPrint.v`)
* `C79_file_name_refuted` (`PropPrintMore.v`)
* `C79_file_name_from_stack` (`PropPrintMore.v`)
* `C80_cluster_map_print` (`PropPrintMaps.v`)
* `C80_unreached_point_overflow_refuted` (`PropPrintMaps.v`)
* `C82_floating_point_tables` (`PropKeys.v`)
* `C82_other_keys_refuted` (`PropKeys.v`)
* `C83_string_tables` (`PropKeys.v`)
* `C83_keys_are_addresses` (`PropKeys.v`)
* `C83_aliases_refuted` (`PropKeys.v`)
* `C83_equal_strings_refuted` (`PropKeys.v`)
* `C85_long_range_refuted` (`PropPyDict.v`)
* `C85_rejected_call_refuted` (`PropPyDict.v`)
* `C85_hierarchies_leak_refuted` (`PropPyDict.v`)
* `C85_before_run_refuted` (`PropPyDict.v`)
* `C88_graph_life` (`PropGraphLife.v`)
* `C88_shared_list_refuted` (`PropGraphLife.v`)
* `C88_short_list_refuted` (`PropGraphLife.v`)
* `C88_use_after_clean_refuted` (`PropGraphLife.v`)
* `C88_default_constructor_refuted` (`PropGraphLife.v`)
* `C88_no_vertices_leak_refuted` (`PropGraphLife.v`)
* `C90_plain_records_agree` (`PropAbi.v`)
* `C90_results_agree` (`PropAbi.v`)
* `C90_outlier_scores_refuted` (`PropAbi.v`)
* `C90_clusters_refuted` (`PropAbi.v`)
* `C90_graph_and_constraint_refuted` (`PropAbi.v`)
* `C91_cluster_objects` (`PropClusterLife.v`)
* `C91_release_destroys_the_parent_refuted` (`PropClusterLife.v`)
* `C92_every_history` (`PropRuns.v`)
* `C92_never_wrong` (`PropRuns.v`)
* `C92_integer_tables` (`PropRuns.v`)
* `C92_clear_after_any_history` (`PropRuns.v`)
* `C92_lost_entry_is_never_freed_refuted` (`PropRuns.v`)
* `C95_ties_refuted` (`PropMinPoints.v`)
* `C96_every_history` (`PropChain.v`)
* `C96_memory` (`PropChain.v`)
* `C96_part_of_the_expected` (`PropChain.v`)
* `C96_three_adds_two_removes_refuted` (`PropChain.v`)
* `C97_working_memory_is_given_back` (`PropLedger.v`)
* `C97_memory_held` (`PropLedger.v`)
* `C97_run_twice_leaks_refuted` (`PropLedger.v`)
* `C98_sorted_lists` (`PropSortList.v`)
* `C98_sorting_a_set_does_nothing` (`PropSortList.v`)
* `C98_unsorted_search_misses_refuted` (`PropSortList.v`)
* `C99_floating_point_every_history` (`PropKeysMore.v`)
* `C99_floating_point_never_wrong` (`PropKeysMore.v`)
* `C99_string_every_history` (`PropKeysMore.v`)
* `C99_string_never_wrong` (`PropKeysMore.v`)
* `C99_same_integer_part_lost_refuted` (`PropKeysMore.v`)

## `ClassicalDedekindReals.sig_forall_dec`, `FunctionalExtensionality.functional_extensionality_dep` (8 theorems)

* `C102_distance_map_can_be_read_back` (`PropReadBack.v`)
* `C77_text_of_a_double` (`PropPrint.v`)
* `C80_distance_map_overflow_refuted` (`PropPrintMaps.v`)
* `C80_stats_print` (`PropPrintMaps.v`)
* `C80_stats_overflow_refuted` (`PropPrintMaps.v`)
* `C80_graph_print` (`PropPrintMaps.v`)
* `C93_factors` (`PropAccuracy.v`)
* `C93_integers_distinguishable` (`PropAccuracy.v`)

## `ClassicalDedekindReals.sig_forall_dec`, `ClassicalDedekindReals.sig_not_dec`, `Classical_Prop.classic`, `FunctionalExtensionality.functional_extensionality_dep` (143 theorems)

* `C100_statistics_do_not_depend_on_threads` (`PropParStats.v`)
* `C100_excel_formulas_and_threads` (`PropParStats.v`)
* `C100_kurtosis_depends_on_threads_refuted` (`PropParStats.v`)
* `C100_few_values_refuted` (`PropParStats.v`)
* `C100_many_values_refuted` (`PropParStats.v`)
* `C101_array_loops` (`PropLoops.v`)
* `C102_print_distances` (`PropReadBack.v`)
* `C102_distances_can_be_read_back` (`PropReadBack.v`)
* `C102_hierarchies_can_be_read_back` (`PropReadMore.v`)
* `C102_scores_can_be_read_back` (`PropReadMore.v`)
* `C104_granted` (`PropRefused.v`)
* `C104_no_object` (`PropRefused.v`)
* `C104_no_distances_refuted` (`PropRefused.v`)
* `C104_no_clusters_refuted` (`PropRefused.v`)
* `C104_no_scores` (`PropRefused.v`)
* `C104_no_labels` (`PropRefused.v`)
* `C104_success_has_results_refuted` (`PropRefused.v`)
* `C104_score_code_refuted` (`PropRefused.v`)
* `C105_file_to_labels` (`PropSample.v`)
* `C106_session` (`PropSession.v`)
* `C106_session_ends` (`PropSampleAll.v`)
* `C106_file_to_session` (`PropSampleAll.v`)
* `C106_coinciding_points_refuted` (`PropSession.v`)
* `C107_cpp_session` (`PropCppSession.v`)
* `C107_coinciding_points_refuted` (`PropCppSession.v`)
* `C107_same_second_list_refuted` (`PropCppSession.v`)
* `C14_too_many_rows_refuted` (`PropDistance.v`)
* `C15_distance_get_euclidean` (`PropDistance.v`)
* `C15_distance_not_negative` (`PropDistance.v`)
* `C16_matrix_schedule_independent` (`PropDistance.v`)
* `C18_core_distance_finite_after_compute` (`PropDistance.v`)
* `C19_rerun_zero_refuted` (`PropRun.v`)
* `C25_hierarchy_terminates` (`PropHier.v`)
* `C25_nan_never_terminates` (`PropHier.v`)
* `C31_point_counts` (`PropHier.v`)
* `C26_noise_level_and_last_cluster` (`PropHier.v`)
* `C27_levels_are_density_components` (`PropHier.v`)
* `C28_levels_are_reachability_components` (`PropHier.v`)
* `C28_levels_from_data` (`PropHier.v`)
* `C29_hierarchy_entries` (`PropHier.v`)
* `C30_cluster_tree` (`PropHier.v`)
* `C31_death_levels` (`PropHier.v`)
* `C31_split_ends_cluster` (`PropHier.v`)
* `C32_cluster_entry` (`PropHier.v`)
* `C33_each_cluster_once_children_first` (`PropSelect.v`)
* `C33_hierarchy_gives_tree` (`PropProminent.v`)
* `C34_selected_clusters_cover_the_leaves` (`PropSelect.v`)
* `C35_local_decisions` (`PropSelect.v`)
* `C35_maximal_in_double_arithmetic` (`PropSelect.v`)
* `C35_maximal_in_exact_arithmetic` (`PropSelect.v`)
* `C36_lowest_death_level` (`PropSelect.v`)
* `C37_reports_largest_finite_stability` (`PropSelect.v`)
* `C37_infinite_stability_refuted` (`PropSelect.v`)
* `C38_labels_are_the_selected_clusters` (`PropProminent.v`)
* `C40_outlier_scores` (`PropOutlier.v`)
* `C41_scores_between_0_and_1` (`PropOutlier.v`)
* `C41_scores_of_a_run` (`PropEnd.v`)
* `C41_single_cluster_refuted` (`PropOutlier.v`)
* `C44_statistics` (`PropStats.v`)
* `C44_previous_contents` (`PropStats.v`)
* `C44_uninitialised_variance_refuted` (`PropStats.v`)
* `C44_empty_map_refuted` (`PropStats.v`)
* `C45_confidence_range` (`PropStats.v`)
* `C45_nan_confidences_refuted` (`PropStats.v`)
* `C48_sorted_by_length` (`PropStats.v`)
* `C48_bad_lists` (`PropStats.v`)
* `C50_small_data_aborts` (`PropRun.v`)
* `C51_run_is_total` (`PropRun.v`)
* `C52_column_data_refuted` (`PropRun.v`)
* `C53_rerun_equals_fresh_run` (`PropRun.v`)
* `C55_integer_difference` (`PropDistance.v`)
* `C55_integer_data` (`PropDistance.v`)
* `C56_results_do_not_depend_on_schedule` (`PropRun.v`)
* `C57_labels_are_dense_components` (`PropEnd.v`)
* `C59_same_results_as_c` (`PropCpp.v`)
* `C60_cpp_sort_by_length` (`PropCpp.v`)
* `C60_bad_inputs_refuted` (`PropCpp.v`)
* `C61_stability_is_the_sum_over_departures` (`PropStab.v`)
* `C61_stability_not_negative` (`PropStab.v`)
* `C62_run_selects_the_most_stable_clusters` (`PropStab.v`)
* `C63_clusters_are_the_dense_components_that_split_off` (`PropCondensed.v`)
* `C63_noise_levels` (`PropCondensed.v`)
* `C64_run_is_hdbscan` (`PropMain.v`)
* `C65_scores_from_data` (`PropMain.v`)
* `C66_identical_rows_get_identical_results` (`PropSame.v`)
* `C67_row_order` (`PropOrder.v`)
* `C67_labels_depend_on_the_order_refuted` (`PropOrder.v`)
* `C67_equal_distances_refuted` (`PropOrder.v`)
* `C69_cluster_sizes` (`PropSize.v`)
* `C70_java_programs` (`PropJava.v`)
* `C70_latest_object` (`PropJava.v`)
* `C70_short_row_refuted` (`PropJava.v`)
* `C70_objects_share_state_refuted` (`PropJava.v`)
* `C70_rerun_after_constructor_refuted` (`PropJava.v`)
* `C72_python_programs` (`PropPython.v`)
* `C72_one_object` (`PropPython.v`)
* `C72_delete_breaks_rerun_refuted` (`PropPython.v`)
* `C72_objects_share_state_refuted` (`PropPython.v`)
* `C72_rejected_reruns_refuted` (`PropPython.v`)
* `C72_rerun_other_data_refuted` (`PropPython.v`)
* `C74_hierarchy_depends_on_order_only` (`PropInvariance.v`)
* `C75_scaling_by_a_power_of_two` (`PropScale.v`)
* `C75_scaling_integers` (`PropScale.v`)
* `C76_integer_distances_are_exact` (`PropIso.v`)
* `C76_isometric_integers` (`PropIso.v`)
* `C76_moved_and_mirrored_columns` (`PropIso.v`)
* `C76_moved_doubles_refuted` (`PropIso.v`)
* `C77_distances_print` (`PropPrint.v`)
* `C77_far_points_overflow_refuted` (`PropPrint.v`)
* `C78_outlier_scores_print` (`PropPrint.v`)
* `C78_single_cluster_overflow_refuted` (`PropPrint.v`)
* `C79_hierarchies_print` (`PropPrintMore.v`)
* `C80_distance_map_print` (`PropPrintMaps.v`)
* `C81_kernel` (`PropCuda.v`)
* `C81_precision` (`PropCuda.v`)
* `C81_far_rows_refuted` (`PropCuda.v`)
* `C81_many_rows_refuted` (`PropCuda.v`)
* `C81_layout_refuted` (`PropCuda.v`)
* `C84_latest_computation` (`PropDistObj.v`)
* `C84_proper_use_defined` (`PropDistObj.v`)
* `C84_blocks_left` (`PropDistObj.v`)
* `C84_before_compute_refuted` (`PropDistObj.v`)
* `C84_recompute_leaks_refuted` (`PropDistObj.v`)
* `C85_cluster_map` (`PropPyDict.v`)
* `C85_hierarchies` (`PropPyDict.v`)
* `C85_short_range_refuted` (`PropPyDict.v`)
* `C86_hierarchy_on_containers` (`PropConcrete.v`)
* `C87_run_on_containers` (`PropConcreteRun.v`)
* `C89_constraints_before_stability` (`PropConstraint.v`)
* `C89_counts_wrap_refuted` (`PropConstraint.v`)
* `C91_detach` (`PropClusterLife.v`)
* `C91_detach_too_many_refuted` (`PropClusterLife.v`)
* `C93_distance_accuracy` (`PropAccuracy.v`)
* `C93_moderate_distances_finite` (`PropAccuracy.v`)
* `C93_triangle` (`PropAccuracy.v`)
* `C93_order` (`PropAccuracy.v`)
* `C93_far_points_infinite_refuted` (`PropAccuracy.v`)
* `C93_near_points_coincide_refuted` (`PropAccuracy.v`)
* `C94_core_accuracy` (`PropAccuracy.v`)
* `C94_labels_accuracy` (`PropAccuracy.v`)
* `C95_core_distances_grow` (`PropMinPoints.v`)
* `C95_dense_groups_shrink` (`PropMinPoints.v`)
* `C95_clusters_inside_dense_groups` (`PropMinPoints.v`)
