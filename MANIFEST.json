{
 "claims": [
  {
   "property": "C01",
   "status": "proved",
   "theorems": [
    "C01_remove_event_exact",
    "C01_remove_event_members",
    "C01_remove_event_counts",
    "C01_remove_event_keyerror"
   ],
   "note": ""
  },
  {
   "property": "C02",
   "status": "proved",
   "theorems": [
    "C02_remove_events_is_iterated_removal",
    "C02_remove_events_set",
    "C02_remove_event_idempotent",
    "C02_remove_event_commute",
    "C02_filter_log_exact",
    "C02_filter_log_twice"
   ],
   "note": ""
  },
  {
   "property": "C03",
   "status": "proved",
   "theorems": [
    "C03_remove_empty_traces_exact",
    "C03_preprocess_names",
    "C03_apply_class_extractor"
   ],
   "note": ""
  },
  {
   "property": "C04",
   "status": "proved",
   "theorems": [
    "C04_text_written",
    "C04_logs_text_written",
    "C04_round_trip",
    "C04_round_trip_general",
    "C04_condition_exact",
    "C04_parse_then_serialize",
    "C04_long_separator_refuted",
    "C04_empty_trace_refuted",
    "C04_unwritable",
    "C04_no_separator"
   ],
   "note": ""
  },
  {
   "property": "C05",
   "status": "proved",
   "theorems": [
    "C05_round_trip",
    "C05_exact_round_trip",
    "C05_int_text_round_trip",
    "C05_document",
    "C05_boolean_read",
    "C05_wrong_int"
   ],
   "note": ""
  },
  {
   "property": "C06",
   "status": "proved",
   "theorems": [
    "C06_properties_never_come_back",
    "C06_lost_values",
    "C06_untyped_global_cannot_be_written",
    "C06_incomplete_extension",
    "C06_faithful_refuted"
   ],
   "note": ""
  },
  {
   "property": "C07",
   "status": "proved",
   "theorems": [
    "C07_equal_content",
    "C07_hash_range",
    "C07_equivalence",
    "C07_ignored_parts",
    "C07_equal_implies_same_refuted",
    "C07_name_collision_refuted",
    "C07_hash_value",
    "C07_single_characters"
   ],
   "note": ""
  },
  {
   "property": "C08",
   "status": "proved",
   "theorems": [
    "C08_deepcopy",
    "C08_deepcopy_isolated",
    "C08_copy",
    "C08_copies_equal",
    "C08_copy_isolated_refuted",
    "C08_deepcopy_same_content_refuted"
   ],
   "note": ""
  },
  {
   "property": "C09",
   "status": "proved",
   "theorems": [
    "C09_split_partition"
   ],
   "note": ""
  },
  {
   "property": "C10",
   "status": "proved",
   "theorems": [
    "C10_same_group_iff_same_hashes",
    "C10_same_group_iff_same_variant",
    "C10_variants_refuted"
   ],
   "note": ""
  },
  {
   "property": "C11",
   "status": "proved",
   "theorems": [
    "C11_variant_filter",
    "C11_variant_filter_refuted"
   ],
   "note": ""
  },
  {
   "property": "C12",
   "status": "proved",
   "theorems": [
    "C12_pair_counts_exact",
    "C12_keys_exact"
   ],
   "note": ""
  },
  {
   "property": "C13",
   "status": "proved",
   "theorems": [
    "C13_conservation",
    "C13_fake_totals",
    "C13_fake_totals_unguarded_refuted"
   ],
   "note": ""
  },
  {
   "property": "C14",
   "status": "proved",
   "theorems": [
    "C14_event_counts_exact",
    "C14_followers_exact",
    "C14_per_trace_counts",
    "C14_total_count"
   ],
   "note": ""
  },
  {
   "property": "C15",
   "status": "proved",
   "theorems": [
    "C15_find_all_events_names"
   ],
   "note": ""
  },
  {
   "property": "C16",
   "status": "proved",
   "theorems": [
    "C16_default_ratios_distribution",
    "C16_laplace_ratios_distribution"
   ],
   "note": ""
  },
  {
   "property": "C17",
   "status": "proved",
   "theorems": [
    "C17_default_entropy",
    "C17_laplace_entropy",
    "C17_default_entropy_formula",
    "C17_laplace_entropy_formula",
    "C17_sum_and_average"
   ],
   "note": ""
  },
  {
   "property": "C18",
   "status": "proved",
   "theorems": [
    "C18_fast_equals_slow",
    "C18_ignored_event_refuted",
    "C18_dicts_agree",
    "C18_index",
    "C18_empty_log"
   ],
   "note": ""
  },
  {
   "property": "C19",
   "status": "proved",
   "theorems": [
    "C19_removal_bridge",
    "C19_default_direct",
    "C19_pos_direct",
    "C19_after_is_without",
    "C19_laplace_zero_deletes_everything",
    "C19_direct_till_end",
    "C19_zero_limit_refuted"
   ],
   "note": ""
  },
  {
   "property": "C20",
   "status": "proved",
   "theorems": [
    "C20_default_indirect",
    "C20_pos_indirect",
    "C20_small_log_never_filtered",
    "C20_indirect_till_end",
    "C20_till_end_protected_never_returns",
    "C20_top_percent_above_one_refuted",
    "C20_comparisons",
    "C20_top"
   ],
   "note": ""
  },
  {
   "property": "C21",
   "status": "proved",
   "theorems": [
    "C21_tandem_arrays_exact",
    "C21_tandem_arrays_first_occurrence",
    "C21_left_maximal_refuted",
    "C21_all_repetitions_found_refuted"
   ],
   "note": ""
  },
  {
   "property": "C22",
   "status": "proved",
   "theorems": [
    "C22_primitive_exact",
    "C22_primitive_block_is_no_power",
    "C22_drops_only_powers_refuted",
    "C22_kept_block_with_period_one_refuted"
   ],
   "note": ""
  },
  {
   "property": "C23",
   "status": "proved",
   "theorems": [
    "C23_super_maximal_exact",
    "C23_antichain",
    "C23_every_repeat_is_inside_a_super_maximal_one",
    "C23_log"
   ],
   "note": ""
  },
  {
   "property": "C24",
   "status": "proved",
   "theorems": [
    "C24_repeat_sets_exact",
    "C24_sets_distinct",
    "C24_every_pattern_represented"
   ],
   "note": ""
  },
  {
   "property": "C25",
   "status": "proved",
   "theorems": [
    "C25_every_set_once",
    "C25_children",
    "C25_roots",
    "C25_discovered_forest",
    "C25_equal_sets_refuted"
   ],
   "note": ""
  },
  {
   "property": "C26",
   "status": "proved",
   "theorems": [
    "C26_extraction_total",
    "C26_instances_ordered",
    "C26_ordered_means",
    "C26_extraction_exact",
    "C26_segments_unique"
   ],
   "note": ""
  },
  {
   "property": "C27",
   "status": "proved",
   "theorems": [
    "C27_instance_contents",
    "C27_narrowing",
    "C27_narrowing_in_inclusion_tree"
   ],
   "note": ""
  },
  {
   "property": "C28",
   "status": "proved",
   "theorems": [
    "C28_covered_iff_attachable"
   ],
   "note": ""
  },
  {
   "property": "C29",
   "status": "proved",
   "theorems": [
    "C29_expand_back",
    "C29_expand_back_log",
    "C29_length",
    "C29_never_longer"
   ],
   "note": ""
  },
  {
   "property": "C30",
   "status": "proved",
   "theorems": [
    "C30_rewritten_trace",
    "C30_rewritten_log",
    "C30_dont_insert",
    "C30_unknown_strategy",
    "C30_undefined_events_kept_refuted",
    "C30_names",
    "C30_wrong_record"
   ],
   "note": ""
  },
  {
   "property": "C31",
   "status": "proved",
   "theorems": [
    "C31_add_unattached",
    "C31_covered",
    "C31_unattached_log",
    "C31_full_fill_ordered_refuted",
    "C31_full_fill",
    "C31_full_fill_log"
   ],
   "note": ""
  },
  {
   "property": "C32",
   "status": "proved",
   "theorems": [
    "C32_expansion_exact",
    "C32_expansion_fails",
    "C32_complete_and_idempotent",
    "C32_leaves_unchanged",
    "C32_distributes",
    "C32_count",
    "C32_visits"
   ],
   "note": ""
  },
  {
   "property": "C33",
   "status": "proved",
   "theorems": [
    "C33_tiles",
    "C33_consecutive",
    "C33_pieces_are_not_patterns",
    "C33_contains_patterns_refuted",
    "C33_log",
    "C33_no_patterns"
   ],
   "note": ""
  },
  {
   "property": "C34",
   "status": "proved",
   "theorems": [
    "C34_by_level",
    "C34_for_level",
    "C34_by_size",
    "C34_select_level"
   ],
   "note": ""
  },
  {
   "property": "C35",
   "status": "proved",
   "theorems": [
    "C35_merge_all_traces"
   ],
   "note": ""
  },
  {
   "property": "C36",
   "status": "proved",
   "theorems": [
    "C36_logs_per_activity",
    "C36_promoted_logs",
    "C36_index",
    "C36_slice",
    "C36_repeat_outside"
   ],
   "note": ""
  },
  {
   "property": "C37",
   "status": "proved",
   "theorems": [
    "C37_construction",
    "C37_sequential",
    "C37_split",
    "C37_split_refuted",
    "C37_append"
   ],
   "note": ""
  },
  {
   "property": "C38",
   "status": "proved",
   "theorems": [
    "C38_shared_log_refuted",
    "C38_confined",
    "C38_input_copy",
    "C38_parallel",
    "C38_if",
    "C38_temporary_input"
   ],
   "note": ""
  },
  {
   "property": "C39",
   "status": "proved",
   "theorems": [
    "C39_contexts",
    "C39_keys"
   ],
   "note": ""
  },
  {
   "property": "C40",
   "status": "proved",
   "theorems": [
    "C40_keep",
    "C40_in_place",
    "C40_replace",
    "C40_no_log",
    "C40_by_name",
    "C40_by_names",
    "C40_by_predicate",
    "C40_by_count",
    "C40_changed_log",
    "C40_changed_names"
   ],
   "note": ""
  },
  {
   "property": "C41",
   "status": "proved",
   "theorems": [
    "C41_hex",
    "C41_unique",
    "C41_next",
    "C41_reset_goes_on",
    "C41_all",
    "C41_all_after_placements_refuted",
    "C41_diagram",
    "C41_diagram_drawn",
    "C41_distinct",
    "C41_session",
    "C41_reset_refuted",
    "C41_placements",
    "C41_black_refuted",
    "C41_histogram",
    "C41_concrete_placements"
   ],
   "note": ""
  },
  {
   "property": "C42",
   "status": "proved",
   "theorems": [
    "C42_dispatch",
    "C42_dispatch_determined",
    "C42_address",
    "C42_nothing_sent",
    "C42_uuid_text"
   ],
   "note": ""
  },
  {
   "property": "C43",
   "status": "proved",
   "theorems": [
    "C43_registered_exactly",
    "C43_registered_without_before_after",
    "C43_uuids_on_the_wire",
    "C43_before_after_never_sent",
    "C43_before_after_refuted"
   ],
   "note": ""
  },
  {
   "property": "C44",
   "status": "proved",
   "theorems": [
    "C44_sendable",
    "C44_value_kept",
    "C44_context_kept",
    "C44_float_kept",
    "C44_float_refuted",
    "C44_unknown_enum_dropped",
    "C44_hashes_log_refuted",
    "C44_petri_net_kept",
    "C44_missing_marking_refuted",
    "C44_graph_kept",
    "C44_annotations_kept",
    "C44_logs_kept",
    "C44_datasets_kept",
    "C44_labels_column_refuted",
    "C44_names_log"
   ],
   "note": ""
  },
  {
   "property": "C45",
   "status": "proved",
   "theorems": [
    "C45_artificial_start_end",
    "C45_remove_lifecycle"
   ],
   "note": ""
  },
  {
   "property": "C46",
   "status": "proved",
   "theorems": [
    "C46_terminates",
    "C46_result",
    "C46_any_pipeline_refuted",
    "C46_narrow_flag_refuted"
   ],
   "note": ""
  },
  {
   "property": "C47",
   "status": "proved",
   "theorems": [
    "C47_layers",
    "C47_total"
   ],
   "note": ""
  },
  {
   "property": "C48",
   "status": "proved",
   "theorems": [
    "C48_near_super_maximal_exact",
    "C48_super_maximal_is_near",
    "C48_near_is_super_maximal_refuted",
    "C48_log"
   ],
   "note": ""
  },
  {
   "property": "C49",
   "status": "proved",
   "theorems": [
    "C49_filter_events",
    "C49_filter_traces",
    "C49_in_place",
    "C49_artificial",
    "C49_in_place_shared_refuted",
    "C49_filtered_independent_refuted"
   ],
   "note": ""
  },
  {
   "property": "C50",
   "status": "proved",
   "theorems": [
    "C50_sub_traces",
    "C50_distinct",
    "C50_undefined_refuted",
    "C50_legend_refuted",
    "C50_placement_different",
    "C50_placement_single",
    "C50_placement_reset_refuted",
    "C50_colored",
    "C50_colored_legend",
    "C50_colored_empty",
    "C50_colored_covers",
    "C50_legend_names_refuted",
    "C50_canvas",
    "C50_placement_axes"
   ],
   "note": ""
  },
  {
   "property": "C51",
   "status": "proved",
   "theorems": [
    "C51_sendable",
    "C51_understood",
    "C51_configured",
    "C51_tandem_panics",
    "C51_configured_refuted",
    "C51_unknown_keys_skipped",
    "C51_key_types",
    "C51_needs",
    "C51_needless",
    "C51_tandem_needs",
    "C51_until_needs",
    "C51_several_needs",
    "C51_each_needs"
   ],
   "note": ""
  },
  {
   "property": "C52",
   "status": "proved",
   "theorems": [
    "C52_several_levels",
    "C52_repeat_sets_point_at_the_log",
    "C52_nothing_left",
    "C52_uuids_used_once",
    "C52_classes_on_own_level_refuted",
    "C52_merged_trace_promotion_refuted"
   ],
   "note": ""
  },
  {
   "property": "C53",
   "status": "proved",
   "theorems": [
    "C53_execution",
    "C53_determined",
    "C53_called_in_order",
    "C53_values_present",
    "C53_underlying_count_is_zero",
    "C53_underlying_count_refuted"
   ],
   "note": ""
  },
  {
   "property": "C54",
   "status": "proved",
   "theorems": [
    "C54_petri_net",
    "C54_annotated_net",
    "C54_edges_join_nodes",
    "C54_same_picture",
    "C54_markings_refuted",
    "C54_graph"
   ],
   "note": ""
  },
  {
   "property": "C55",
   "status": "proved",
   "theorems": [
    "C55_marked",
    "C55_marking_fails",
    "C55_marked_iff_covered",
    "C55_instances_names",
    "C55_indices",
    "C55_indices_discovered",
    "C55_names_to_hashes",
    "C55_saved_names",
    "C55_saved_all_names",
    "C55_saved_names_refuted",
    "C55_unattached_names",
    "C55_share",
    "C55_printed"
   ],
   "note": ""
  },
  {
   "property": "C56",
   "status": "proved",
   "theorems": [
    "C56_shown",
    "C56_exact",
    "C56_same_name_refuted",
    "C56_discovered_names",
    "C56_discovered_graph",
    "C56_discovered_drawn",
    "C56_discovered_hashes",
    "C56_separator_refuted",
    "C56_hashes_refuted",
    "C56_class_graph",
    "C56_class_kept_refuted",
    "C56_class_graph_stable",
    "C56_class_order_refuted",
    "C56_serialized",
    "C56_levels",
    "C56_paths",
    "C56_levels_hashes_refuted"
   ],
   "note": ""
  },
  {
   "property": "C57",
   "status": "proved",
   "theorems": [
    "C57_colours",
    "C57_trace_logs",
    "C57_grid_search",
    "C57_positions",
    "C57_nodes",
    "C57_merge_total",
    "C57_k_means_legend",
    "C57_dbscan_legend_refuted",
    "C57_left_out_untouched_refuted",
    "C57_second_clustering_refuted",
    "C57_picture",
    "C57_dbscan_labels"
   ],
   "note": ""
  },
  {
   "property": "C58",
   "status": "proved",
   "theorems": [
    "C58_traces",
    "C58_traces_rows",
    "C58_traces_order",
    "C58_levenshtein",
    "C58_levenshtein_rows",
    "C58_activities",
    "C58_activities_rows",
    "C58_activities_order",
    "C58_not_twice",
    "C58_clusters_alike_refuted"
   ],
   "note": ""
  },
  {
   "property": "C59",
   "status": "proved",
   "theorems": [
    "C59_rows",
    "C59_close",
    "C59_zero",
    "C59_traces",
    "C59_not_levenshtein_refuted",
    "C59_triangle_refuted",
    "C59_cosine",
    "C59_cosine_zero_row"
   ],
   "note": ""
  },
  {
   "property": "C60",
   "status": "proved",
   "theorems": [
    "C60_print_info",
    "C60_before_and_after",
    "C60_print_dfg",
    "C60_print_dfg_refuted",
    "C60_save_names",
    "C60_save_names_refuted",
    "C60_histogram",
    "C60_histogram_groups",
    "C60_traces_histogram_refuted",
    "C60_plot_logs",
    "C60_plot_one_log_refuted",
    "C60_canvas_legend",
    "C60_canvas_legend_refuted",
    "C60_save_xes",
    "C60_save_xes_refuted"
   ],
   "note": ""
  },
  {
   "property": "C61",
   "status": "proved",
   "theorems": [
    "C61_replay_decides",
    "C61_replay_never_panics",
    "C61_replay_ends",
    "C61_silent_sinks_end",
    "C61_replay_settled",
    "C61_order_does_not_matter",
    "C61_counts",
    "C61_no_marking_no_annotation",
    "C61_frequencies",
    "C61_trace_frequencies",
    "C61_ensure_initial_marking",
    "C61_ensure_empty_trace",
    "C61_ensured_start",
    "C61_ensured_log_replayable_refuted",
    "C61_any_net_replays_refuted",
    "C61_replay_always_ends_refuted",
    "C61_replayed_ends_finally_refuted",
    "C61_counts_order_refuted",
    "C61_trace_frequency_at_most_one_refuted"
   ],
   "note": ""
  },
  {
   "property": "C62",
   "status": "proved",
   "theorems": [
    "C62_counts",
    "C62_followers",
    "C62_starts",
    "C62_same_as_library",
    "C62_ignored_refuted",
    "C62_graph",
    "C62_fake_graph_refuted",
    "C62_connect",
    "C62_disconnect",
    "C62_neighbours",
    "C62_connected_refuted",
    "C62_events"
   ],
   "note": ""
  },
  {
   "property": "C63",
   "status": "proved",
   "theorems": [
    "C63_net",
    "C63_connected",
    "C63_part_connected",
    "C63_order",
    "C63_result",
    "C63_replay",
    "C63_sequence",
    "C63_replays_own_log_refuted",
    "C63_equality",
    "C63_equality_refuted"
   ],
   "note": ""
  },
  {
   "property": "C64",
   "status": "proved",
   "theorems": [
    "C64_net",
    "C64_result",
    "C64_short_trace_panics",
    "C64_loop_at_an_end_panics",
    "C64_every_log_has_a_net_refuted",
    "C64_plus_plus_is_plus",
    "C64_connected",
    "C64_loop_alive",
    "C64_loop_dead",
    "C64_replays_own_log_refuted",
    "C64_place_of_loop_refuted",
    "C64_replay"
   ],
   "note": ""
  },
  {
   "property": "C65",
   "status": "proved",
   "theorems": [
    "C65_finds_all_positions",
    "C65_finds_words_of_traces",
    "C65_tail_is_unique",
    "C65_position_in_last_trace_refuted"
   ],
   "note": ""
  },
  {
   "property": "C66",
   "status": "proved",
   "theorems": [
    "C66_reported_words",
    "C66_maximal_repeats_are_maximal",
    "C66_super_maximal_repeats",
    "C66_near_super_maximal_repeats_are_near",
    "C66_kinds_are_nested",
    "C66_maximal_repeat_of_two_positions",
    "C66_every_repeat_is_covered",
    "C66_maximal_repeat_missed_refuted",
    "C66_near_repeat_at_start_missed_refuted",
    "C66_merged_traces",
    "C66_merged_words_repeat",
    "C66_merged_equal_traces_refuted",
    "C66_order_does_not_matter"
   ],
   "note": ""
  },
  {
   "property": "C67",
   "status": "proved",
   "theorems": [
    "C67_tandem_arrays_total",
    "C67_tandem_arrays_exact",
    "C67_tandem_arrays_first_occurrence",
    "C67_tandem_arrays_as_before",
    "C67_primitive_exact",
    "C67_repeat_sets_total",
    "C67_repeat_sets_exact",
    "C67_repeat_sets_cover",
    "C67_repeat_sets_as_before",
    "C67_any_order",
    "C67_every_class_set_found_refuted",
    "C67_all_repetitions_found_refuted"
   ],
   "note": ""
  },
  {
   "property": "C68",
   "status": "proved",
   "theorems": [
    "C68_nodes_are_the_sets",
    "C68_one_node_per_set",
    "C68_children_exact",
    "C68_children_once",
    "C68_roots_maximal",
    "C68_discovered_forest",
    "C68_every_contained_set_below_refuted",
    "C68_children_largest_refuted"
   ],
   "note": ""
  },
  {
   "property": "C69",
   "status": "proved",
   "theorems": [
    "C69_instances_total",
    "C69_instances_exact",
    "C69_contents",
    "C69_covered_iff_attachable",
    "C69_filter_exact",
    "C69_narrowing",
    "C69_up_and_down_differ_refuted",
    "C69_adding",
    "C69_narrowing_names"
   ],
   "note": ""
  },
  {
   "property": "C70",
   "status": "proved",
   "theorems": [
    "C70_found_in_order",
    "C70_new_log_exact",
    "C70_instances_only",
    "C70_events_at_the_bottom",
    "C70_count_of_events_at_the_bottom",
    "C70_nothing_lost",
    "C70_never_more_events",
    "C70_rounds",
    "C70_unattached_exact",
    "C70_logs_of_groups",
    "C70_logs_of_instances",
    "C70_both_ways_agree",
    "C70_activity_name",
    "C70_activity_name_panics",
    "C70_names_tell_apart",
    "C70_nothing_lost_refuted",
    "C70_names_tell_apart_refuted",
    "C70_both_ways_agree_refuted"
   ],
   "note": ""
  },
  {
   "property": "C71",
   "status": "proved",
   "theorems": [
    "C71_search_total",
    "C71_until_total",
    "C71_until_bounded",
    "C71_until_log",
    "C71_until_no_more_left",
    "C71_pipeline_runs",
    "C71_levels",
    "C71_each_log",
    "C71_each_log_of_instances",
    "C71_executed_once_refuted",
    "C71_levels_of_tandem_arrays_panic",
    "C71_levels_without_instances_missing",
    "C71_levels_of_all_kinds_refuted",
    "C71_hashes",
    "C71_undefined"
   ],
   "note": ""
  },
  {
   "property": "C72",
   "status": "proved",
   "theorems": [
    "C72_filter_name",
    "C72_filter_names",
    "C72_filter_regex",
    "C72_filters_commute",
    "C72_filter_absent_name",
    "C72_filter_keeps_other_traces_refuted",
    "C72_filter_count",
    "C72_filter_traces",
    "C72_groups",
    "C72_groups_independent",
    "C72_groups_are_variants",
    "C72_split",
    "C72_variants",
    "C72_variants_of_hashes",
    "C72_every_variant_kept_refuted",
    "C72_start_end",
    "C72_rename",
    "C72_names_round_trip",
    "C72_class_extractor",
    "C72_class_extractor_errors",
    "C72_trace_info",
    "C72_trace_info_of_copy",
    "C72_trace_info_for_ever",
    "C72_trace_info_right_refuted"
   ],
   "note": ""
  },
  {
   "property": "C73",
   "status": "proved",
   "theorems": [
    "C73_from_pm4py_keeps_everything",
    "C73_to_pm4py_keeps_events",
    "C73_round_trip",
    "C73_round_trip_pm4py",
    "C73_trace_attributes_survive_refuted",
    "C73_starts"
   ],
   "note": ""
  },
  {
   "property": "C74",
   "status": "proved",
   "theorems": [
    "C74_patch_keeps_lines",
    "C74_lines_determined",
    "C74_every_import_patched_refuted",
    "C74_module_names"
   ],
   "note": ""
  },
  {
   "property": "C75",
   "status": "proved",
   "theorems": [
    "C75_stream",
    "C75_success_can_be_read",
    "C75_answers_come_from_its_execution",
    "C75_dropped_for_good",
    "C75_never_stuck",
    "C75_can_finish_alone",
    "C75_bounded_work",
    "C75_isolated",
    "C75_left_behind",
    "C75_nothing_left",
    "C75_nothing_kept_for_nobody_refuted"
   ],
   "note": ""
  },
  {
   "property": "C76",
   "status": "proved",
   "theorems": [
    "C76_round_trip",
    "C76_values",
    "C76_exact",
    "C76_markup",
    "C76_written_is_read",
    "C76_no_time_no_event",
    "C76_extensions_refuted"
   ],
   "note": ""
  },
  {
   "property": "C77",
   "status": "proved",
   "theorems": [
    "C77_total",
    "C77_panics",
    "C77_ends",
    "C77_written",
    "C77_text",
    "C77_cut_in_trace",
    "C77_cut_between_traces",
    "C77_always_ends_refuted",
    "C77_never_panics_refuted"
   ],
   "note": ""
  },
  {
   "property": "C78",
   "status": "proved",
   "theorems": [
    "C78_net",
    "C78_result",
    "C78_short_traces_panic",
    "C78_one_way",
    "C78_follower_kept",
    "C78_no_annotation",
    "C78_silent_ends",
    "C78_replay",
    "C78_replays_own_log_refuted",
    "C78_replay_never_panics_refuted",
    "C78_order_refuted"
   ],
   "note": ""
  },
  {
   "property": "C79",
   "status": "proved",
   "theorems": [
    "C79_read",
    "C79_when",
    "C79_booleans_refuted",
    "C79_events_refuted",
    "C79_traces_refuted"
   ],
   "note": ""
  },
  {
   "property": "C80",
   "status": "proved",
   "theorems": [
    "C80_when",
    "C80_error",
    "C80_read",
    "C80_values",
    "C80_flat",
    "C80_booleans_refuted",
    "C80_ids_refuted"
   ],
   "note": ""
  },
  {
   "property": "C81",
   "status": "proved",
   "theorems": [
    "C81_edges",
    "C81_no_clusters",
    "C81_same",
    "C81_best_stays",
    "C81_none_stays",
    "C81_self",
    "C81_negative_ratio_refuted"
   ],
   "note": ""
  },
  {
   "property": "C82",
   "status": "proved",
   "theorems": [
    "C82_clusters",
    "C82_members",
    "C82_same_members",
    "C82_order_refuted",
    "C82_connected_refuted",
    "C82_incoming_refuted",
    "C82_two_members_refuted"
   ],
   "note": ""
  },
  {
   "property": "C83",
   "status": "proved",
   "theorems": [
    "C83_file",
    "C83_when",
    "C83_same",
    "C83_refs",
    "C83_ids",
    "C83_names",
    "C83_same_file_names",
    "C83_same_file_ids",
    "C83_markings",
    "C83_order_refuted",
    "C83_names_refuted",
    "C83_arc_names_refuted",
    "C83_place_names_refuted"
   ],
   "note": ""
  },
  {
   "property": "C84",
   "status": "proved",
   "theorems": [
    "C84_arrives",
    "C84_when",
    "C84_errors",
    "C84_exact",
    "C84_same",
    "C84_file",
    "C84_read",
    "C84_variants",
    "C84_attributes_refuted",
    "C84_stamps_refuted",
    "C84_counts_refuted",
    "C84_twice_refuted",
    "C84_values"
   ],
   "note": ""
  },
  {
   "property": "C85",
   "status": "proved",
   "theorems": [
    "C85_relations",
    "C85_short_trace_panics",
    "C85_exclusive",
    "C85_one_way_refuted",
    "C85_added_refuted",
    "C85_cache",
    "C85_answers",
    "C85_current_refuted"
   ],
   "note": ""
  },
  {
   "property": "C86",
   "status": "proved",
   "theorems": [
    "C86_closure",
    "C86_ends_refuted",
    "C86_nothing_removed",
    "C86_reduction_refuted"
   ],
   "note": ""
  },
  {
   "property": "C87",
   "status": "proved",
   "theorems": [
    "C87_fast_equals_slow",
    "C87_ignored_event_refuted",
    "C87_ignored_event_panics",
    "C87_empty_log_panics",
    "C87_tables",
    "C87_same_as_library",
    "C87_range"
   ],
   "note": ""
  },
  {
   "property": "C88",
   "status": "proved",
   "theorems": [
    "C88_default",
    "C88_laplace",
    "C88_same_as_library",
    "C88_bounds"
   ],
   "note": ""
  },
  {
   "property": "C89",
   "status": "proved",
   "theorems": [
    "C89_build",
    "C89_points",
    "C89_ranges",
    "C89_closed_ranges",
    "C89_half_open_ranges_refuted"
   ],
   "note": ""
  },
  {
   "property": "C90",
   "status": "proved",
   "theorems": [
    "C90_envelopes",
    "C90_exact",
    "C90_single_point",
    "C90_all_inside_refuted"
   ],
   "note": ""
  },
  {
   "property": "C91",
   "status": "proved",
   "theorems": [
    "C91_key_ids",
    "C91_keys_differ",
    "C91_keys_differ_refuted",
    "C91_run",
    "C91_typed",
    "C91_put_any_refuted",
    "C91_put",
    "C91_remove",
    "C91_clone",
    "C91_clone_shares",
    "C91_clone_isolated_refuted"
   ],
   "note": ""
  },
  {
   "property": "C92",
   "status": "proved",
   "theorems": [
    "C92_triples_end",
    "C92_triples",
    "C92_triples_refuted",
    "C92_pairs_end",
    "C92_pairs",
    "C92_pairs_refuted",
    "C92_extensions_end",
    "C92_extensions",
    "C92_extensions_refuted"
   ],
   "note": ""
  },
  {
   "property": "C93",
   "status": "proved",
   "theorems": [
    "C93_w1_w2",
    "C93_w3",
    "C93_w3_missing_panics",
    "C93_elimination_refuted"
   ],
   "note": ""
  },
  {
   "property": "C94",
   "status": "proved",
   "theorems": [
    "C94_short_trace_panics",
    "C94_net",
    "C94_no_replay",
    "C94_replays_own_log_refuted",
    "C94_steps"
   ],
   "note": ""
  },
  {
   "property": "C95",
   "status": "proved",
   "theorems": [
    "C95_relations",
    "C95_tuples",
    "C95_lines",
    "C95_short_trace_panics",
    "C95_clone_refuted",
    "C95_one_left_refuted"
   ],
   "note": ""
  },
  {
   "property": "C96",
   "status": "proved",
   "theorems": [
    "C96_moves",
    "C96_back",
    "C96_added",
    "C96_removed_refuted",
    "C96_whole_log",
    "C96_simple",
    "C96_setters",
    "C96_default_graph",
    "C96_default_graph_same"
   ],
   "note": ""
  },
  {
   "property": "C97",
   "status": "proved",
   "theorems": [
    "C97_arcs",
    "C97_neighbours",
    "C97_arc",
    "C97_panics",
    "C97_by_name",
    "C97_delete_refuted",
    "C97_place_refuted"
   ],
   "note": ""
  }
 ]
}
