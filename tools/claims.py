claim("C01", "proved", ["C01_arraylist_is_a_sequence"], "")
claim("C02", "proved", ["C02_arraylist_memory_safe", "C02_insert_past_end_refuted", "C02_clear_resize_refuted"],
      "Safety proved for the histories of C01; the two excluded operations are shown to leave the block for every history.")
claim("C03", "proved", ["C03_set_is_a_sorted_finite_set"], "")
claim("C04", "proved", ["C04_insert_order_irrelevant"], "")
claim("C05", "proved", ["C05_cleared_set_overflows_refuted", "C05_cleared_hashtable_overflows_refuted"],
      "The property is false of the code; the theorem gives the exact failing histories (second distinct insert after any clear).")
claim("C06", "proved", ["C06_hashtable_is_a_finite_map"], "")
claim("C07", "proved", ["C07_removals_without_long_chains", "C07_single_removal", "C07_second_removal_loses_keys_refuted"],
      "Proved for histories without long chains and for one removal after any of them; the general claim is refuted for every table with three keys in one bucket.")
claim("C08", "proved", ["C08_removed_value", "C08_wide_value_truncated_refuted"],
      "Exact bytes handed back for every key/value size; equal to the stored value when the sizes agree, false otherwise.")
claim("C09", "proved", ["C09_clear_destroys_each_value_once", "C09_key_destroyed_twice_refuted"],
      "Values: exactly once. Keys: the key destructor is called repeatedly with the same key on collisions.")
claim("C10", "proved", ["C10_linkedlist_is_a_sequence", "C10_remove_last_refuted", "C10_remove_middle_refuted"],
      "Adds, reads, clears and front removals refine a sequence; other removals are refuted for every history.")
claim("C11", "proved", ["C11_find_prime_less_than", "C11_missed_primes_refuted", "C11_at_least_one_bucket"],
      "Exact result for every argument; the 'greatest prime below x' part fails for exactly the 75 listed arguments up to 1217.")
claim("C12", "proved", ["C12_get_prime_value", "C12_get_prime_refuted"],
      "The property is false: get_prime returns max(0, min+1); undefined for INT_MAX.")
claim("C13", "proved", ["C13_integer_compare", "C13_double_compare", "C13_double_compare_nan_refuted", "C13_outlier_compare",
      "C13_outlier_compare_refuted", "C13_cluster_compare", "C13_hash_in_range", "C13_equal_keys_hash_equally",
      "C13_double_hash_refuted", "C13_library_tables_qualify"],
      "Total orders on the stored values; refuted for NaN, for ids more than 2^31 apart and for hashing doubles outside size_t.")
claim("C14", "proved", ["C14_condensed_layout", "C14_too_many_rows_refuted"],
      "Bijection between pairs and slots up to 65536 rows; undefined behaviour for every larger row count.")
claim("C15", "proved", ["C15_distance_get_euclidean", "C15_distance_not_negative"],
      "Bit-exact for double data of any size up to 65536 rows and any number of columns.")
claim("C16", "proved", ["C16_matrix_schedule_independent", "C16_core_schedule_independent"],
      "Every interleaving of the row threads at write granularity; every order of the core distance iterations.")
claim("C17", "proved", ["C17_core_distance_kth_smallest", "C17_ties_refuted", "C17_ties_too_large_refuted"],
      "Exact without ties (and always for minPoints up to 2); refuted for infinite families with ties, too small and too large.")
claim("C18", "proved", ["C18_core_distance_finite", "C18_core_distance_finite_after_compute", "C18_sentinel_iff_too_few_neighbours"],
      "Any matrix; after distance_compute on doubles also non-negative.")
claim("C55", "proved", ["C55_integer_difference", "C55_integer_data"],
      "distance_compute on integer data is defined iff every coordinate difference fits the C type.")
claim("C20", "proved", ["C20_spanning_tree_construction"],
      "For every readable distance object, including NaN and infinite distances.")
claim("C21", "proved", ["C21_tree_preserves_density_connectivity"],
      "Every threshold; the hypothesis is exactly that all distances and core distances are below D_MAX.")
claim("C22", "proved", ["C22_no_finite_reachability_no_tree", "C22_min_points_exceeds_rows"], "")
claim("C23", "proved", ["C23_quicksort_by_edge_weight", "C23_graph_quicksort"], "")
claim("C24", "proved", ["C24_adjacency_matches_edges", "C24_remove_edge", "C24_double_self_loop_refuted"],
      "Removal is exact except for a vertex with two self loops, where one call removes both.")
claim("C25", "proved", ["C25_hierarchy_terminates", "C25_nan_never_terminates", "C31_point_counts"],
      "Result Ok excludes out-of-range access, NULL clusters and exhausted fuel; a NaN weight exhausts every fuel.")
claim("C26", "proved", ["C26_noise_level_and_last_cluster"], "Written at the level where the point becomes noise and never changed.")
claim("C27", "proved", ["C27_levels_are_density_components"], "")
claim("C28", "proved", ["C28_levels_are_reachability_components", "C28_levels_from_data"],
      "From the distance object, and from data of any type through distance_compute, spanning tree, sort and hierarchy.")
claim("C29", "proved", ["C29_hierarchy_entries"], "")
claim("C30", "proved", ["C30_cluster_tree"], "")
claim("C31", "proved", ["C31_point_counts", "C31_death_levels", "C31_split_ends_cluster"], "")
claim("C32", "proved", ["C32_cluster_entry"], "")
claim("C33", "proved", ["C33_each_cluster_once_children_first", "C33_hierarchy_gives_tree"], "For every order of the leaves.")
claim("C34", "proved", ["C34_selected_clusters_cover_the_leaves"], "")
claim("C35", "proved", ["C35_local_decisions", "C35_maximal_in_double_arithmetic", "C35_maximal_in_exact_arithmetic"],
      "Local rule for all doubles; maximality of the computed double total; maximality in exact reals when the stabilities lie on a common grid.")
claim("C36", "proved", ["C36_lowest_death_level"], "")
claim("C37", "proved", ["C37_reports_largest_finite_stability", "C37_infinite_stability_refuted"],
      "As the code's documentation states it the property is refuted; the flag never reports an infinite stability.")
claim("C38", "proved", ["C38_labels_are_the_selected_clusters"], "For every order of both parallel loops.")
claim("C19", "proved", ["C19_init_rejects", "C19_rerun_zero_refuted", "C19_no_self_edges_refuted", "C20_spanning_tree_construction"],
      "Rejection by hdbscan_init proved; hdbscan_rerun(0) and selfEdges = FALSE are refuted.")
claim("C40", "proved", ["C40_outlier_scores"], "")
claim("C41", "proved", ["C41_scores_between_0_and_1", "C41_scores_of_a_run", "C41_single_cluster_refuted"],
      "Proved when there is more than one cluster; refuted for a single cluster.")
claim("C50", "proved", ["C50_small_data_aborts", "C51_run_is_total"], "")
claim("C51", "proved", ["C51_run_is_total"], "")
claim("C52", "proved", ["C52_column_data_refuted"], "Refuted: undefined behaviour for every such dataset.")
claim("C53", "proved", ["C53_rerun_equals_fresh_run"], "")
claim("C56", "proved", ["C56_results_do_not_depend_on_schedule"], "For schedules without the race of C39, which is modelled on its own.")
claim("C57", "proved", ["C57_labels_are_dense_components"], "")
claim("C42", "proved", ["C42_cluster_map_is_the_partition", "C42_short_ranges_abort"], "Ranges of one or two points abort the process instead of giving a map.")
claim("C47", "proved", ["C47_tandem_quicksort", "C47_nan_pivot_never_terminates_refuted"], "Holds for keys without NaN; with a NaN pivot and three or more keys the sort never terminates.")
claim("C43", "proved", ["C43_min_max_distances", "C43_order_dependent_refuted"], "")
claim("C44", "proved", ["C44_statistics", "C44_previous_contents", "C44_uninitialised_variance_refuted", "C44_empty_map_refuted"], "Count, means and maxima are independent of the previous contents; the variance is added to the field's old value, so the property as a user would want it is refuted.")
claim("C45", "proved", ["C45_confidence_range", "C45_nan_confidences_refuted"], "Holds when the ratios are finite and one is positive; one infinite ratio or only zero ratios makes every confidence NaN.")
claim("C46", "proved", ["C46_validity_score"], "")
claim("C48", "proved", ["C48_sorted_by_length", "C48_bad_lists"], "")
claim("C49", "proved", ["C49_all_labels_by_confidence", "C49_empty_map_aborts", "C49_supplied_list_uses_other_confidences", "C49_supplied_list_refuted", "C49_nan_confidences_never_terminate_refuted"], "Holds for a NULL list; a supplied list is sorted by other clusters' confidences; NaN confidences never terminate.")
claim("C39", "proved", ["C39_every_schedule", "C39_one_thread", "C39_offset_race_refuted", "C39_lost_offset_loses_the_cluster"], "Refuted as soon as two threads have an iteration each; proved for one thread. Every schedule writes only new clusters and at least one of them.")
claim("C54", "proved", ["C54_every_block_is_freed_once", "C54_not_run_refuted", "C54_rerun_after_clean_refuted", "C54_second_run_leaks_refuted", "C54_destroy_of_foreign_object_refuted"], "Proved for the histories that start with a run and do not run twice; the other histories are refuted.")
claim("C58", "proved", ["C58_cpp_cluster_map_is_the_partition", "C58_same_map_as_c", "C58_large_labels_in_another_order_refuted"], "For labels of 2^31 and more the C table iterates in another order.")
claim("C59", "proved", ["C59_cpp_min_max_distances", "C59_same_results_as_c", "C59_empty_map_refuted"], "Agreement with C proved for three or more points and labels below 2^31; an empty map is undefined behaviour.")
claim("C60", "proved", ["C60_cpp_sort_by_length", "C60_cpp_sort_by_similarity", "C60_bad_inputs_refuted", "C60_c_and_cpp_disagree"], "The exceptions are proved as refutations.")
claim("C61", "proved", ["C61_stability_is_the_sum_over_departures", "C61_stability_not_negative"], "")
claim("C62", "proved", ["C62_run_selects_the_most_stable_clusters"], "Composes C61, C35 and the run; the distances of a run are never denormal, so the hypothesis on the weights in C61 needs no assumption about the data.")
claim("C63", "proved", ["C63_clusters_are_the_dense_components_that_split_off", "C63_noise_levels"], "")
claim("C64", "proved", ["C64_run_is_hdbscan"], "The core distances are those distance_compute stores; what they are is C17.")
claim("C65", "proved", ["C65_scores_from_data"], "")
claim("C66", "proved", ["C66_identical_rows_get_identical_results"], "")
claim("C67", "proved", ["C67_row_order", "C67_labels_depend_on_the_order_refuted", "C67_equal_distances_refuted"], "clusters, births, scores and core distances proved equal; that the labels are equal is refuted, and so is everything without the condition on the distances")
claim("C68", "proved", ["C68_integer_tables", "C68_removed_value_by_type", "C68_pointer_values", "C68_pointer_keys_refuted"], "double, float and string keys are not covered (their hash functions are, in C13)")
claim("C69", "proved", ["C69_cluster_sizes"], "")
claim("C70", "proved", ["C70_java_programs", "C70_latest_object", "C70_short_row_refuted", "C70_objects_share_state_refuted", "C70_rerun_after_constructor_refuted"], "what each object shows is proved for the shared state the binding has; that each object has a state of its own is refuted")
claim("C71", "proved", ["C71_java_cluster_map"], "")
claim("C72", "proved", ["C72_python_programs", "C72_one_object", "C72_delete_breaks_rerun_refuted", "C72_delete_after_constructor_refuted", "C72_rejected_constructor_refuted", "C72_objects_share_state_refuted", "C72_rejected_reruns_refuted", "C72_rerun_other_data_refuted"], "as C70; reference counts of the lists of labels only")
claim("C73", "proved", ["C73_validity_of_results"], "memory as numbered blocks, as in C51-C54")
claim("C74", "proved", ["C74_hierarchy_depends_on_order_only"], "the two runs may use different schedules and sorts")
claim("C75","proved",["C75_scaling_by_a_power_of_two","C75_scaling_integers"],"Bit-exact, through every rounding step, for doubles in [2^-200,2^200] and for integers. With only the root cluster the outlier scores are left out: there they are 1 - DBL_MAX/level (finding of C40).")
claim("C76","proved",["C76_integer_distances_are_exact","C76_isometric_integers","C76_moved_and_mirrored_columns","C76_moved_doubles_refuted"],"The refuted part is the translation of doubles, a limit of floating point rather than a defect.")
claim("C77","proved",["C77_text_of_an_integer","C77_text_of_a_double","C77_distances_print","C77_far_points_overflow_refuted"],"")
claim("C78","proved",["C78_outlier_scores_print","C78_single_cluster_overflow_refuted"],"")
claim("C79","proved",["C79_hierarchies_print","C79_file_name_refuted","C79_file_name_from_stack"],"")
claim("C80","proved",["C80_cluster_map_print","C80_distance_map_print","C80_distance_map_overflow_refuted","C80_stats_print","C80_stats_overflow_refuted","C80_graph_print","C80_unreached_point_overflow_refuted"],"The graph is given by its arrays and the lists of its vertices, as C16-C18 describe them.")
claim("C81","proved",["C81_kernel","C81_precision","C81_far_rows_refuted","C81_many_rows_refuted","C81_layout_refuted"],"No code of the repository launches the kernel; the claim is about a launch with the arguments named.")
claim("C82","proved",["C82_floating_point_tables","C82_other_keys_refuted"],"A float key is modelled by the double of the same value. Histories without removal, as in C68.")
claim("C83","proved",["C83_string_tables","C83_keys_are_addresses","C83_aliases_refuted","C83_equal_strings_refuted"],"Pointers of 8 bytes, little endian. Histories without removal, as in C68.")
claim("C84","proved",["C84_latest_computation","C84_proper_use_defined","C84_blocks_left","C84_before_compute_refuted","C84_recompute_leaks_refuted"],"")
claim("C85","proved",["C85_cluster_map","C85_hierarchies","C85_short_range_refuted","C85_long_range_refuted","C85_rejected_call_refuted","C85_hierarchies_leak_refuted","C85_before_run_refuted"],"Arrays by their elements at the time of the call; the references to keys and arrays are left out.")
claim("C86","proved",["C86_hierarchy_on_containers"],"compute_hierarchy is the model on sequences that C25-C32 are about.")
claim("C87","proved",["C87_run_on_containers"],"fresh_run and reruns are the model on sequences that C51-C85 are about.")
claim("C88","proved",["C88_graph_life","C88_shared_list_refuted","C88_short_list_refuted","C88_use_after_clean_refuted","C88_default_constructor_refuted","C88_no_vertices_leak_refuted"],"Allocation of a positive size succeeds; a grown block is a fresh one.")
claim("C89","proved",["C89_constraints_before_stability","C89_counts_wrap_refuted"],"Constraints of the virtual child of a leaf never count, as in the code: a leaf always hands up itself. With no constraint the statement is C34.")
claim("C90","proved",["C90_plain_records_agree","C90_results_agree","C90_outlier_scores_refuted","C90_clusters_refuted","C90_graph_and_constraint_refuted"],"The ABI rules are part of the model (trusted): natural alignment, table pointer of 8 bytes first.")
claim("C91","proved",["C91_cluster_objects","C91_release_destroys_the_parent_refuted","C91_detach","C91_detach_too_many_refuted"],"That set_insert keeps the points ordered and without repetition is C06, on the library's array.")
claim("C92","proved",["C92_every_history","C92_never_wrong","C92_integer_tables","C92_clear_after_any_history","C92_lost_entry_is_never_freed_refuted"],"The exact behaviour is the specification of SpecRuns.v; C92_never_wrong compares with the finite map of SpecMap.v.")
claim("C93","proved",["C93_distance_accuracy","C93_factors","C93_moderate_distances_finite","C93_integers_distinguishable","C93_triangle","C93_order","C93_far_points_infinite_refuted","C93_near_points_coincide_refuted"],"IEEE arithmetic without contraction of multiply and add.")
claim("C94","proved",["C94_core_accuracy","C94_labels_accuracy"],"Ties in a row are excluded for minPoints above 2: there the core distance is wrong (C17).")
claim("C95","proved",["C95_core_distances_grow","C95_dense_groups_shrink","C95_clusters_inside_dense_groups","C95_ties_refuted"],"Infinite distances and the sentinel D_MAX included; ties refuted.")
claim("C96","proved",["C96_every_history","C96_memory","C96_part_of_the_expected","C96_three_adds_two_removes_refuted"],"Complete description of the list with removals; the loss of elements, of the end and of memory refuted.")
claim("C97","proved",["C97_working_memory_is_given_back","C97_memory_held","C97_run_twice_leaks_refuted"],"All allocations of a run, for arbitrary decisions of the code in between; the exact memory held; the leak of a run without cleaning refuted.")
claim("C98","proved",["C98_sorted_lists","C98_sorting_a_set_does_nothing","C98_unsorted_search_misses_refuted"],"Histories with sorts and sorted searches; qsort is any function that sorts.")
claim("C99","proved",["C99_floating_point_every_history","C99_floating_point_never_wrong","C99_string_every_history","C99_string_never_wrong","C99_same_integer_part_lost_refuted"],"Keys wider than values are C08. Pointers of 8 bytes, little endian.")
claim("C100","proved",["C100_statistics_do_not_depend_on_threads","C100_excel_formulas_and_threads","C100_kurtosis_depends_on_threads_refuted","C100_few_values_refuted","C100_many_values_refuted"],"Loads and stores of a double are atomic. hdbscan_skew_kurt_2 is not called by the library.")
claim("C101","proved",["C101_without_races_the_schedule_does_not_matter","C101_array_loops","C101_point_loops","C101_races_refuted","C101_lost_offset_refuted","C101_region_stores"],"The loops over distances are C16, over leaves and selected clusters C04, C38 and C56. Loads through containers that a loop does not change are single loads.")
claim("C102","proved",["C102_labels_can_be_read_back","C102_sizes_can_be_read_back","C102_c_and_cpp_print_the_same","C102_labels_can_be_read_back_from_c","C102_distance_map_can_be_read_back","C102_print_distances","C102_distances_can_be_read_back","C102_graph_components","C102_hierarchies_can_be_read_back","C102_scores_can_be_read_back"],"For C: labels and points below 2^31 and at least three points, as in C80. Unsigned values are printed with %d: values from 2^31 on appear as negative numbers and can still be read back.")
claim("C103","proved",["C103_list_or_null","C103_list_calls_until_refused","C103_refused_append_keeps_the_list_refuted","C103_set_calls_until_refused","C103_refused_clear_refuted","C103_granted_clear","C103_linked_list_additions","C103_linked_list_data_refuted","C103_table_or_null","C103_tables_while_memory_lasts","C103_refused_insertion_refuted","C103_objects","C103_clusters","C103_graph_while_memory_lasts","C103_graph_refusals","C103_null_graph_keeps_nothing_refuted","C103_graph_has_its_edges_refuted"],"The _refuted theorems state what goes wrong, each for every state in which the request is refused or with a concrete pattern of refusals. The functions of hdbscan.c are in C104.")
claim("C104","proved",["C104_granted","C104_no_object","C104_no_distances_refuted","C104_no_clusters_refuted","C104_no_scores","C104_no_labels","C104_success_has_results_refuted","C104_score_code_refuted"],"The requests of the collections used inside a run are granted here; C103 has the collections on their own.")
claim("C105","proved",["C105_reads_words","C105_reads_tables","C105_file_to_labels","C105_any_file","C105_blank_line_refuted","C105_long_line_refuted","C105_all_files_refuted","C105_odd_bytes_refuted"],"fgets, strtok and isspace are modelled after the C standard, atof is any function from the bytes of a word to a double.")
claim("C106","proved",["C106_session","C106_session_ends","C106_file_to_session","C106_coinciding_points_refuted"],"Composition of C42-C49 on the result of a run. The printing calls are left out here (C77-C80).")
claim("C107","proved",["C107_cpp_session","C107_coinciding_points_refuted","C107_same_second_list_refuted"],"Composition of C59 and C60 on the result of a run, next to the C session of C106. The printing calls are left out.")
