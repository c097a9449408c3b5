(** grpc_pipelines/constants.py: one definition per constant.  File generated from that text. *)
From Verif Require Import Py.

(** constants.py 1. *)
Definition const_read_log_from_xes : pystr := str "ReadLogFromXes".
(** constants.py 2. *)
Definition const_write_log_to_xes : pystr := str "WriteLogToXes".
(** constants.py 3. *)
Definition const_colors_event_log : pystr := str "colors_event_log".
(** constants.py 4. *)
Definition const_event_name : pystr := str "event_name".
(** constants.py 5. *)
Definition const_regex : pystr := str "regex".
(** constants.py 6. *)
Definition const_tandem_array_length : pystr := str "tandem_array_length".
(** constants.py 7. *)
Definition const_patterns_discovery_strategy : pystr := str "patterns_discovery_strategy".
(** constants.py 8. *)
Definition const_activity_level : pystr := str "activity_level".
(** constants.py 9. *)
Definition const_narrow_activities : pystr := str "narrow_activities".
(** constants.py 10. *)
Definition const_event_log_info : pystr := str "event_log_info".
(** constants.py 11. *)
Definition const_events_count : pystr := str "events_count".
(** constants.py 12. *)
Definition const_event_classes_regexes : pystr := str "event_classes_regexes".
(** constants.py 13. *)
Definition const_adjusting_mode : pystr := str "adjusting_mode".
(** constants.py 14. *)
Definition const_event_class_regex : pystr := str "event_class_regex".
(** constants.py 15. *)
Definition const_names_event_log : pystr := str "names_event_log".
(** constants.py 16. *)
Definition const_patterns_kind : pystr := str "patterns_kind".
(** constants.py 17. *)
Definition const_pipeline : pystr := str "pipeline".
(** constants.py 18. *)
Definition const_min_events_in_activity : pystr := str "min_activity_length".
(** constants.py 19. *)
Definition const_undef_activity_handling_strategy : pystr := str "undef_activity_handling_strategy".
(** constants.py 20. *)
Definition const_underlying_events_count : pystr := str "underlying_events_count".
(** constants.py 21. *)
Definition const_activity_filter_kind : pystr := str "activity_in_trace_filter_kind".
(** constants.py 22. *)
Definition const_activities_logs_source : pystr := str "activities_logs_source".
(** constants.py 23. *)
Definition const_path : pystr := str "path".
(** constants.py 24. *)
Definition const_petri_net : pystr := str "petri_net".
(** constants.py 25. *)
Definition const_pnml_use_names_as_ids : pystr := str "pnml_use_names_as_ids".
(** constants.py 26. *)
Definition const_graph : pystr := str "graph".
(** constants.py 27. *)
Definition const_dependency_relation_threshold : pystr := str "dependency_threshold".
(** constants.py 28. *)
Definition const_positive_observations_threshold : pystr := str "positive_observations_threshold".
(** constants.py 29. *)
Definition const_relative_to_best_threshold : pystr := str "relative_to_best_threshold".
(** constants.py 30. *)
Definition const_and_threshold : pystr := str "and_threshold".
(** constants.py 31. *)
Definition const_loop_length_two_threshold : pystr := str "loop_length_two_threshold".
(** constants.py 32. *)
Definition const_unary_frequency_threshold : pystr := str "unary_frequency_threshold".
(** constants.py 33. *)
Definition const_binary_frequency_significance_threshold : pystr := str "binary_frequency_significance_threshold".
(** constants.py 34. *)
Definition const_preserve_threshold : pystr := str "preserve_threshold".
(** constants.py 35. *)
Definition const_ratio_threshold : pystr := str "ratio_threshold".
(** constants.py 36. *)
Definition const_utility_rate : pystr := str "utility_rate".
(** constants.py 37. *)
Definition const_edge_cutoff_threshold : pystr := str "edge_cutoff_threshold".
(** constants.py 38. *)
Definition const_node_cutoff_threshold : pystr := str "node_cutoff_threshold".
(** constants.py 39. *)
Definition const_petri_net_count_annotation : pystr := str "petri_net_count_annotation".
(** constants.py 40. *)
Definition const_petri_net_frequency_annotation : pystr := str "petri_net_frequency_annotation".
(** constants.py 41. *)
Definition const_petri_net_trace_frequency_annotation : pystr := str "petri_net_trace_frequency_annotation".
(** constants.py 42. *)
Definition const_terminate_on_unreplayable_trace : pystr := str "terminate_on_unreplayable_traces".
(** constants.py 43. *)
Definition const_clusters_count : pystr := str "clusters_count".
(** constants.py 44. *)
Definition const_learning_iterations_count : pystr := str "learning_iterations_count".
(** constants.py 45. *)
Definition const_tolerance : pystr := str "tolerance".
(** constants.py 46. *)
Definition const_min_events_in_cluster_count : pystr := str "min_events_in_cluster_count".
(** constants.py 47. *)
Definition const_traces_activities_dataset : pystr := str "traces_activities_dataset".
(** constants.py 48. *)
Definition const_labeled_traces_activities_dataset : pystr := str "labeled_traces_activities_dataset".
(** constants.py 49. *)
Definition const_activities_representation_source : pystr := str "activities_repr_source".
(** constants.py 50. *)
Definition const_distance : pystr := str "distance".
(** constants.py 51. *)
Definition const_execute_only_on_last_extraction : pystr := str "execute_only_on_last_extraction".
(** constants.py 52. *)
Definition const_log_traces_dataset : pystr := str "log_traces_dataset".
(** constants.py 53. *)
Definition const_labeled_log_traces_dataset : pystr := str "labeled_log_traces_dataset".
(** constants.py 54. *)
Definition const_traces_repr_source : pystr := str "traces_repr_source".
(** constants.py 56. *)
Definition const_draw_placement_of_event_by_regex : pystr := str "DrawPlacementOfEventsByRegex".
(** constants.py 57. *)
Definition const_draw_full_activities_diagram : pystr := str "DrawFullActivitiesDiagram".
(** constants.py 58. *)
Definition const_draw_short_activities_diagram : pystr := str "DrawShortActivitiesDiagram".
(** constants.py 59. *)
Definition const_draw_placement_of_event_by_name : pystr := str "DrawPlacementOfEventByName".
(** constants.py 60. *)
Definition const_find_primitive_tandem_arrays : pystr := str "FindPrimitiveTandemArrays".
(** constants.py 61. *)
Definition const_find_maximal_tandem_arrays : pystr := str "FindMaximalTandemArrays".
(** constants.py 62. *)
Definition const_find_maximal_repeats : pystr := str "FindMaximalRepeats".
(** constants.py 63. *)
Definition const_find_super_maximal_repeats : pystr := str "FindSuperMaximalRepeats".
(** constants.py 64. *)
Definition const_find_near_super_maximal_repeats : pystr := str "FindNearSuperMaximalRepeats".
(** constants.py 65. *)
Definition const_discover_activities : pystr := str "DiscoverActivities".
(** constants.py 66. *)
Definition const_discover_activities_instances : pystr := str "DiscoverActivitiesInstances".
(** constants.py 67. *)
Definition const_get_event_log_info : pystr := str "GetEventLogInfo".
(** constants.py 68. *)
Definition const_filter_traces_by_events_count : pystr := str "FilterTracesByEventsCount".
(** constants.py 69. *)
Definition const_get_hashes_event_log : pystr := str "GetHashesEventLog".
(** constants.py 70. *)
Definition const_get_names_event_log : pystr := str "GetNamesEventLog".
(** constants.py 71. *)
Definition const_traces_diversity_diagram : pystr := str "TracesDiversityDiagram".
(** constants.py 72. *)
Definition const_use_names_event_log : pystr := str "UseNamesEventLog".
(** constants.py 73. *)
Definition const_discover_activities_for_several_levels : pystr := str "DiscoverActivitiesForSeveralLevels".
(** constants.py 74. *)
Definition const_discover_activities_until_no_more : pystr := str "DiscoverActivitiesUntilNoMore".
(** constants.py 75. *)
Definition const_create_log_from_activities : pystr := str "CreateLogFromActivities".
(** constants.py 76. *)
Definition const_filter_events_by_name : pystr := str "FilterEventsByName".
(** constants.py 77. *)
Definition const_filter_events_by_regex : pystr := str "FilterEventsByRegex".
(** constants.py 78. *)
Definition const_filter_log_by_variants : pystr := str "FilterLogByVariants".
(** constants.py 79. *)
Definition const_execute_with_each_activity_log : pystr := str "ExecuteWithEachActivityLog".
(** constants.py 80. *)
Definition const_substitute_underlying_events : pystr := str "SubstituteUnderlyingEvents".
(** constants.py 81. *)
Definition const_clear_activities_related_stuff : pystr := str "ClearActivities".
(** constants.py 82. *)
Definition const_get_number_of_underlying_events : pystr := str "GetUnderlyingEventsCount".
(** constants.py 83. *)
Definition const_execute_frontend_part : pystr := str "ExecuteFrontendPipeline".
(** constants.py 84. *)
Definition const_apply_class_extractor : pystr := str "ApplyClassExtractor".
(** constants.py 85. *)
Definition const_discover_petri_net_alpha : pystr := str "DiscoverPetriNetAlpha".
(** constants.py 86. *)
Definition const_serialize_petri_net_to_pnml : pystr := str "SerializePetriNet".
(** constants.py 87. *)
Definition const_add_start_end_artificial_events : pystr := str "AddArtificialStartEndEvents".
(** constants.py 88. *)
Definition const_add_start_artificial_events : pystr := str "AddArtificialStartEvents".
(** constants.py 89. *)
Definition const_add_end_artificial_events : pystr := str "AddArtificialEndEvents".
(** constants.py 90. *)
Definition const_discover_petri_net_alpha_plus : pystr := str "DiscoverPetriNetAlphaPlus".
(** constants.py 91. *)
Definition const_discover_petri_net_alpha_plus_plus : pystr := str "DiscoverPetriNetAlphaPlusPlus".
(** constants.py 92. *)
Definition const_discover_petri_net_alpha_plus_plus_nfc : pystr := str "DiscoverPetriNetAlphaPlusPlusNfc".
(** constants.py 93. *)
Definition const_discover_directly_follows_graph : pystr := str "DiscoverDirectlyFollowsGraph".
(** constants.py 94. *)
Definition const_discover_petri_net_heuristic : pystr := str "DiscoverPetriNetHeuristic".
(** constants.py 95. *)
Definition const_discover_graph_fuzzy : pystr := str "DiscoverFuzzyGraph".
(** constants.py 96. *)
Definition const_annotate_petri_net_count : pystr := str "AnnotatePetriNetWithCount".
(** constants.py 97. *)
Definition const_annotate_petri_net_frequency : pystr := str "AnnotatePetriNetWithFrequency".
(** constants.py 98. *)
Definition const_annotate_petri_net_trace_frequency : pystr := str "AnnotatePetriNetWithTraceFrequency".
(** constants.py 99. *)
Definition const_ensure_initial_marking : pystr := str "EnsureInitialMarking".
(** constants.py 100. *)
Definition const_read_log_from_bxes : pystr := str "ReadLogFromBxes".
(** constants.py 101. *)
Definition const_clusterize_activities_from_traces_k_means : pystr := str "ClusterizeActivitiesFromTracesKMeans".
(** constants.py 102. *)
Definition const_clusterize_activities_from_traces_k_means_grid_search : pystr := str "ClusterizeActivitiesFromTracesKMeansGridSearch".
(** constants.py 103. *)
Definition const_clusterize_activities_from_traces_dbscan : pystr := str "ClusterizeActivitiesFromTracesDbscan".
(** constants.py 104. *)
Definition const_create_traces_activities_dataset : pystr := str "CreateTracesActivitiesDataset".
(** constants.py 105. *)
Definition const_write_log_to_bxes : pystr := str "WriteLogToBxes".
(** constants.py 106. *)
Definition const_clusterize_log_traces : pystr := str "ClusterizeLogTraces".
(** constants.py 108. *)
Definition const_pattern_discovery_strategy_enum_name : pystr := str "PatternsDiscoveryStrategy".
(** constants.py 109. *)
Definition const_patterns_kind_enum_name : pystr := str "PatternsKindDto".
(** constants.py 110. *)
Definition const_adjusting_mode_enum_name : pystr := str "AdjustingMode".
(** constants.py 111. *)
Definition const_undef_activity_handling_strat_name : pystr := str "UndefActivityHandlingStrategyDto".
(** constants.py 112. *)
Definition const_narrow_activities_kind_enum_name : pystr := str "ActivityNarrowingKind".
(** constants.py 113. *)
Definition const_activity_filter_kind_enum_name : pystr := str "ActivityInTraceFilterKind".
(** constants.py 114. *)
Definition const_activities_logs_source_enum_name : pystr := str "ActivitiesLogsSourceDto".
(** constants.py 115. *)
Definition const_activities_repr_source_enum_name : pystr := str "ActivityRepresentationSource".
(** constants.py 116. *)
Definition const_distance_enum_name : pystr := str "FicusDistance".
(** constants.py 117. *)
Definition const_traces_repr_source_enum_name : pystr := str "TracesRepresentationSource".
(** constants.py 119. *)
Definition const_cluster_labels : pystr := str "cluster_labels".
