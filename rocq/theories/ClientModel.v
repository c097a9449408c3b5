(** The gRPC client: grpc_pipelines/grpc_pipelines.py, context_values.py and the part classes of
    activities_parts.py, discovery_parts.py, drawing_parts.py, filtering_parts.py, mutation_parts.py,
    patterns_parts.py, util_parts.py, xes_parts.py.

    Not modelled: attributes of the parts that only matter to the drawing code (titles, scales, figure
    sizes, paths of pictures), and the two lines that performance_cookie prints around a callback.
    Attributes have the type of their annotation (an argument that is None although its annotation
    does not allow it is outside the model). *)
From Verif Require Import Py WireModel ConstModel.

(** * Enums: data_models.py, legacy/pipelines/analysis/patterns/models.py,
    legacy/analysis/patterns/patterns_models.py 68-71 *)

(** PatternsDiscoveryStrategy, data_models.py 4-6. *)
Inductive e_strategy := FromAllTraces | FromSingleMergedTrace.
(** PatternsKind, data_models.py 9-14. *)
Inductive e_kind := PrimitiveTandemArrays | MaximalTandemArrays | MaximalRepeats | SuperMaximalRepeats
                  | NearSuperMaximalRepeats.
(** NarrowActivityKind, data_models.py 17-21. *)
Inductive e_narrow := DontNarrow | StayTheSame | NarrowUp | NarrowDown.
(** ActivityFilterKind, data_models.py 24-26. *)
Inductive e_filter := NoFilter | DefaultFilter.
(** ActivitiesLogsSource, data_models.py 29-31. *)
Inductive e_source := SourceLog | SourceTracesActivities.
(** ActivitiesRepresentationSource, data_models.py 34-37. *)
Inductive e_repr := EventClasses | SubTraces | SubTracesUnderlyingEvents.
(** Distance, data_models.py 40-44. *)
Inductive e_distance := Cosine | L1 | L2 | Levenshtein.
(** TracesRepresentationSource, data_models.py 47-50. *)
Inductive e_traces_repr := TracesEvents | TracesUnderlying | TracesDeepest.
(** AdjustingMode, legacy/pipelines/analysis/patterns/models.py.  models.py 9-11. *)
Inductive e_adjusting := FromUnattachedSubTraces | FromAllLog.
(** UndefinedActivityHandlingStrategy, patterns_models.py 68-71. *)
Inductive e_undef := DontInsert | InsertAsSingleEvent | InsertAllEvents.

(** [.name] of each enum (data_models.py 4-50 and the two legacy enums).  grpc_pipelines.py 256. *)
Definition strategy_name (x : e_strategy) : pystr :=
  match x with FromAllTraces => str "FromAllTraces" | FromSingleMergedTrace => str "FromSingleMergedTrace" end.
(** grpc_pipelines/data_models.py 9-14; grpc_pipelines/grpc_pipelines.py 264. *)
Definition kind_name (x : e_kind) : pystr :=
  match x with
  | PrimitiveTandemArrays => str "PrimitiveTandemArrays"
  | MaximalTandemArrays => str "MaximalTandemArrays"
  | MaximalRepeats => str "MaximalRepeats"
  | SuperMaximalRepeats => str "SuperMaximalRepeats"
  | NearSuperMaximalRepeats => str "NearSuperMaximalRepeats"
  end.
(** grpc_pipelines/data_models.py 17-21; grpc_pipelines/grpc_pipelines.py 276. *)
Definition narrow_name (x : e_narrow) : pystr :=
  match x with
  | DontNarrow => str "DontNarrow" | StayTheSame => str "StayTheSame"
  | NarrowUp => str "NarrowUp" | NarrowDown => str "NarrowDown"
  end.
(** grpc_pipelines/data_models.py 24-26; grpc_pipelines/grpc_pipelines.py 286. *)
Definition filter_name (x : e_filter) : pystr :=
  match x with NoFilter => str "NoFilter" | DefaultFilter => str "DefaultFilter" end.
(** grpc_pipelines/data_models.py 29-31; grpc_pipelines/grpc_pipelines.py 290. *)
Definition source_name (x : e_source) : pystr :=
  match x with SourceLog => str "Log" | SourceTracesActivities => str "TracesActivities" end.
(** grpc_pipelines/data_models.py 34-37. *)
Definition repr_name (x : e_repr) : pystr :=
  match x with
  | EventClasses => str "EventClasses" | SubTraces => str "SubTraces"
  | SubTracesUnderlyingEvents => str "SubTracesUnderlyingEvents"
  end.
(** grpc_pipelines/data_models.py 40-44. *)
Definition distance_name (x : e_distance) : pystr :=
  match x with
  | Cosine => str "Cosine" | L1 => str "L1" | L2 => str "L2" | Levenshtein => str "Levenshtein"
  end.
(** grpc_pipelines/data_models.py 47-50. *)
Definition traces_repr_name (x : e_traces_repr) : pystr :=
  match x with
  | TracesEvents => str "Events" | TracesUnderlying => str "UnderlyingEvents"
  | TracesDeepest => str "DeepestUnderlyingEvents"
  end.
(** legacy/pipelines/analysis/patterns/models.py 9-11; grpc_pipelines/grpc_pipelines.py 268. *)
Definition adjusting_name (x : e_adjusting) : pystr :=
  match x with FromUnattachedSubTraces => str "FromUnattachedSubTraces" | FromAllLog => str "FromAllLog" end.
(** legacy/analysis/patterns/patterns_models.py 68-71; grpc_pipelines/grpc_pipelines.py 282. *)
Definition undef_name (x : e_undef) : pystr :=
  match x with
  | DontInsert => str "DontInsert" | InsertAsSingleEvent => str "InsertAsSingleEvent"
  | InsertAllEvents => str "InsertAllEvents"
  end.

(** * Context values: the classes of context_values.py 15-101, as conversions to a message *)

(** StringContextValue.to_grpc_context_value, grpc_pipelines/context_values.py 22-26. *)
Definition string_value (s : pystr) : result gvalue := bind (pb_string s) (fun s => Ok (GString s)).
(** FloatContextValue, grpc_pipelines/context_values.py 30-34. *)
Definition float_value (x : pyfloat) : result gvalue := Ok (GFloat (f32 x)).
(** Uint32ContextValue, grpc_pipelines/context_values.py 38-42. *)
Definition uint32_value (z : Z) : result gvalue := bind (pb_uint32 z) (fun z => Ok (GUint32 z)).
(** BoolContextValue, grpc_pipelines/context_values.py 46-50. *)
Definition bool_value (b : bool) : result gvalue := Ok (GBool b).
(** HashesLogContextValue, grpc_pipelines/context_values.py 54-66. *)
Definition hashes_log_value (log : list (list Z)) : result gvalue :=
  bind (mapM (mapM pb_uint64) log) (fun log => Ok (GHashesLog log)).
(** NamesLogContextValue, grpc_pipelines/context_values.py 70-82. *)
Definition names_log_value (log : list (list pystr)) : result gvalue :=
  bind (mapM (mapM pb_string) log) (fun log => Ok (GNamesLog log)).
(** EnumContextValue, grpc_pipelines/context_values.py 86-91. *)
Definition enum_value (ty v : pystr) : result gvalue :=
  bind (pb_string ty) (fun ty => bind (pb_string v) (fun v => Ok (GEnum ty v))).
(** StringsContextValue, grpc_pipelines/context_values.py 95-101. *)
Definition strings_value (l : list pystr) : result gvalue :=
  bind (mapM pb_string l) (fun l => Ok (GStrings l)).

(** * Part configurations *)

(** One call of _append_context_value, grpc_pipelines.py 235-239; a configuration is built by such
    calls in order, the first exception ends it. *)
Notation append := (pystr * result gvalue)%type.
(** grpc_pipelines/grpc_pipelines.py 235-239. *)
Definition build_config (l : list append) : result (list (pystr * gvalue)) :=
  mapM (fun a => bind (snd a) (fun v => Ok (fst a, v))) l.

(** append_string_value grpc_pipelines/grpc_pipelines.py 227-228. *)
Definition append_string (key s : pystr) : append := (key, string_value s).
(** append_float_value grpc_pipelines/grpc_pipelines.py 231-232. *)
Definition append_float (key : pystr) (x : pyfloat) : append := (key, float_value x).
(** append_uint32_value grpc_pipelines/grpc_pipelines.py 242-243. *)
Definition append_uint32 (key : pystr) (z : Z) : append := (key, uint32_value z).
(** append_bool_value grpc_pipelines/grpc_pipelines.py 246-247. *)
Definition append_bool (key : pystr) (b : bool) : append := (key, bool_value b).
(** append_enum_value grpc_pipelines/grpc_pipelines.py 250-251. *)
Definition append_enum (key ty v : pystr) : append := (key, enum_value ty v).
(** append_patterns_discovery_strategy grpc_pipelines/grpc_pipelines.py 254-256. *)
Definition append_strategy (key : pystr) (x : e_strategy) : append :=
  append_enum key const_pattern_discovery_strategy_enum_name (strategy_name x).
(** append_strings_context_value grpc_pipelines/grpc_pipelines.py 259-260. *)
Definition append_strings (key : pystr) (l : list pystr) : append := (key, strings_value l).
(** append_patterns_kind grpc_pipelines/grpc_pipelines.py 263-264. *)
Definition append_kind (key : pystr) (x : e_kind) : append :=
  append_enum key const_patterns_kind_enum_name (kind_name x).
(** append_adjusting_mode grpc_pipelines/grpc_pipelines.py 267-268. *)
Definition append_adjusting (key : pystr) (x : e_adjusting) : append :=
  append_enum key const_adjusting_mode_enum_name (adjusting_name x).
(** append_narrow_kind grpc_pipelines/grpc_pipelines.py 275-276. *)
Definition append_narrow (key : pystr) (x : e_narrow) : append :=
  append_enum key const_narrow_activities_kind_enum_name (narrow_name x).
(** append_undef_activity_handling_strat grpc_pipelines/grpc_pipelines.py 279-282. *)
Definition append_undef (key : pystr) (x : e_undef) : append :=
  append_enum key const_undef_activity_handling_strat_name (undef_name x).
(** append_activity_filter_kind grpc_pipelines/grpc_pipelines.py 285-286. *)
Definition append_filter (key : pystr) (x : e_filter) : append :=
  append_enum key const_activity_filter_kind_enum_name (filter_name x).
(** append_activities_logs_source grpc_pipelines/grpc_pipelines.py 289-290. *)
Definition append_source (key : pystr) (x : e_source) : append :=
  append_enum key const_activities_logs_source_enum_name (source_name x).
(** append_pipeline_value grpc_pipelines/grpc_pipelines.py 271-272 and PipelineContextValue 294-298, given what to_grpc_pipeline gave. *)
Definition append_pipeline (key : pystr) (p : result (list gpart)) : append :=
  (key, bind p (fun parts => Ok (GPipeline parts))).
(** [if x is not None: append_string_value(config, key, x)].  grpc_pipelines/activities_parts.py 184-185, 355-356, 495-496. *)
Definition append_opt_string (key : pystr) (o : option pystr) : list append :=
  match o with Some s => [append_string key s] | None => [] end.

(** GrpcPipelinePartBase(defaultPart=_create_default_pipeline_part(name, config)), grpc_pipelines/grpc_pipelines.py 223-224. *)
Definition default_part (name : pystr) (l : list append) : result gpart :=
  bind (build_config l) (fun c => Ok (GDefault name c)).
(** _create_simple_get_context_value_part, grpc_pipelines/grpc_pipelines.py 198-202. *)
Definition simple_part (u : uuid) (key : pystr) : result gpart := Ok (GSimple key (uuid_str u)).
(** _create_complex_get_context_part, grpc_pipelines/grpc_pipelines.py 209-220; the configuration is built before it. *)
Definition complex_part (u : uuid) (keys : list pystr) (before : pystr) (l : list append) : result gpart :=
  bind (build_config l) (fun c => Ok (GComplex keys before c (uuid_str u))).

(** * Parts *)

(** What create_common_config sends, activities_parts.py 334-358. *)
Record common := mkCommon { cm_level : Z; cm_tolerance : pyfloat; cm_repr : e_repr; cm_distance : e_distance;
                            cm_class : option pystr }.
(** The repeats classes of patterns_parts.py 64-88. *)
Inductive repeats_kind := RMaximal | RSuper | RNear.
(** AnnotatePetriNetWithCount2 / Frequency2 / TraceFrequency2, discovery_parts.py 232-283. *)
Inductive annotation_kind := ACount | AFrequency | ATraceFrequency.

(** The part classes without an inner pipeline.  [canvas] tells the ...Canvas class from the other.  
    grpc_pipelines/activities_parts.py 11-575, discovery_parts.py, drawing_parts.py, filtering_parts.py,
    mutation_parts.py, patterns_parts.py, util_parts.py, xes_parts.py. *)
Inductive leaf :=
(* activities_parts.py *)
| LDiscoverActivities (level : Z)
| LDiscoverInstances (narrow : e_narrow) (min_events : Z) (f : e_filter)
| LCreateLog (s : e_undef)
| LSeveralLevels (classes : list pystr) (kind : e_kind) (narrow : e_narrow) (level : Z) (s : e_strategy)
    (max_length : Z) (adj : e_adjusting) (min_unattached min_events : Z) (f : e_filter)
| LFromPatterns (kind : e_kind) (s : e_strategy) (max_length level : Z)
| LSubstituteUnderlying
| LClearActivities
| LPrintUnderlyingCount
| LApplyClassExtractor (regex filter_regex : pystr)
| LKMeans (c : common) (clusters iterations : Z)
| LKMeansGrid (c : common) (iterations : Z)
| LDbscan (c : common) (min_events : Z)
| LVisualize (level : Z) (class : option pystr) (r : e_repr)
(* discovery_parts.py *)
| LAlpha | LAlphaPlus | LAlphaPlusPlus | LAlphaPlusPlusNfc
| LHeuristic (dependency : pyfloat) (positive : Z) (relative and_threshold loop2 : pyfloat)
| LFuzzy (unary binary preserve ratio utility edge node : pyfloat)
| LSerializePnml (path : pystr) (names_as_ids : bool)
| LViewPetriNet | LViewDfg | LViewGraph
| LAnnotate (k : annotation_kind) (terminate : bool)
| LEnsureMarking
(* drawing_parts.py *)
| LDiversity (canvas : bool)
| LPlacementsByName (canvas : bool) (name : pystr)
| LPlacementsByRegex (canvas : bool) (regex : pystr)
| LFullDiagram (canvas : bool)
| LShortDiagram (canvas : bool)
(* filtering_parts.py *)
| LFilterCount (n : Z) | LFilterName (name : pystr) | LFilterRegex (regex : pystr) | LFilterVariants
(* mutation_parts.py *)
| LAddStartEnd | LAddStart | LAddEnd
(* patterns_parts.py *)
| LTandem (maximal : bool) (max_length : Z) (class : option pystr)
| LRepeats (k : repeats_kind) (s : e_strategy) (class : option pystr)
(* util_parts.py, xes_parts.py, grpc_pipelines.py 187-195 *)
| LUseNames | LPrintLog
| LReadXes | LWriteXes (path : pystr) | LReadBxes | LWriteBxes (path : pystr)
| LPrintInfo
(* PipelinePart2 / PipelinePart2WithCallback themselves, grpc_pipelines.py 119-136 *)
| LAbstract (callback : bool).

(** isinstance(part, PipelinePart2WithCallback) for each class above.  grpc_pipelines/grpc_pipelines.py 130-136. *)
Definition leaf_callback (l : leaf) : bool :=
  match l with
  | LPrintUnderlyingCount | LKMeans _ _ _ | LKMeansGrid _ _ | LDbscan _ _ | LVisualize _ _ _
  | LViewPetriNet | LViewDfg | LViewGraph | LAnnotate _ _
  | LDiversity _ | LPlacementsByName _ _ | LPlacementsByRegex _ _ | LFullDiagram _ | LShortDiagram _
  | LPrintLog | LPrintInfo => true
  | LAbstract b => b
  | _ => false
  end.

(** DiscoverActivities2.to_grpc_part, activities_parts.py 19-22. *)
Definition discover_activities_grpc (level : Z) : result gpart :=
  default_part const_discover_activities [append_uint32 const_activity_level level].
(** FindTandemArrays2.to_grpc_part and its two classes, patterns_parts.py 22-42. *)
Definition tandem_grpc (maximal : bool) (max_length : Z) (class : option pystr) : result gpart :=
  default_part (if maximal then const_find_maximal_tandem_arrays else const_find_primitive_tandem_arrays)
    (append_uint32 const_tandem_array_length max_length :: append_opt_string const_event_class_regex class).
(** part_name of the classes of patterns_parts.py 64-88. *)
Definition repeats_part_name (k : repeats_kind) : pystr :=
  match k with
  | RMaximal => const_find_maximal_repeats
  | RSuper => const_find_super_maximal_repeats
  | RNear => const_find_near_super_maximal_repeats
  end.
(** FindRepeats2.to_grpc_part, patterns_parts.py 55-61. *)
Definition repeats_grpc (k : repeats_kind) (s : e_strategy) (class : option pystr) : result gpart :=
  default_part (repeats_part_name k)
    (append_strategy const_patterns_discovery_strategy s :: append_opt_string const_event_class_regex class).
(** The match of DiscoverActivitiesFromPatterns2.to_grpc_part, activities_parts.py 113-126. *)
Definition patterns_part_grpc (kind : e_kind) (s : e_strategy) (max_length : Z) : result gpart :=
  match kind with
  | MaximalRepeats => repeats_grpc RMaximal s None
  | SuperMaximalRepeats => repeats_grpc RSuper s None
  | NearSuperMaximalRepeats => repeats_grpc RNear s None
  | PrimitiveTandemArrays => tandem_grpc false max_length None
  | MaximalTandemArrays => tandem_grpc true max_length None
  end.
(** ClusterizationPart2.create_common_config, activities_parts.py 340-358. *)
Definition common_appends (c : common) : list append :=
  [append_uint32 const_activity_level (cm_level c);
   append_float const_tolerance (cm_tolerance c);
   append_enum const_activities_representation_source const_activities_repr_source_enum_name (repr_name (cm_repr c));
   append_enum const_distance const_distance_enum_name (distance_name (cm_distance c))]
  ++ append_opt_string const_event_class_regex (cm_class c).
(** The keys and the part of the annotation classes, discovery_parts.py 241-244, 259-262, 277-280. *)
Definition annotation_key (k : annotation_kind) : pystr :=
  match k with
  | ACount => const_petri_net_count_annotation
  | AFrequency => const_petri_net_frequency_annotation
  | ATraceFrequency => const_petri_net_trace_frequency_annotation
  end.
(** The part name passed by the same constructors (discovery_parts.py 242, 260, 278). *)
Definition annotation_part (k : annotation_kind) : pystr :=
  match k with
  | ACount => const_annotate_petri_net_count
  | AFrequency => const_annotate_petri_net_frequency
  | ATraceFrequency => const_annotate_petri_net_trace_frequency
  end.

(** to_grpc_part of each class without an inner pipeline; the lines are those of the method.  Each
    case gives its file and lines, from activities_parts.py 19-22 on. *)
Definition leaf_grpc (u : uuid) (l : leaf) : result gpart :=
  match l with
  (* activities_parts.py 19-22 *)
  | LDiscoverActivities level => discover_activities_grpc level
  (* 35-42 *)
  | LDiscoverInstances narrow min_events f =>
      default_part const_discover_activities_instances
        [append_narrow const_narrow_activities narrow;
         append_uint32 const_min_events_in_activity min_events;
         append_filter const_activity_filter_kind f]
  (* 51-55 *)
  | LCreateLog s =>
      default_part const_create_log_from_activities [append_undef const_undef_activity_handling_strategy s]
  (* 82-97 *)
  | LSeveralLevels classes kind narrow level s max_length adj min_unattached min_events f =>
      default_part const_discover_activities_for_several_levels
        [append_narrow const_narrow_activities narrow;
         append_strings const_event_classes_regexes classes;
         append_adjusting const_adjusting_mode adj;
         append_uint32 const_activity_level level;
         append_uint32 const_events_count min_unattached;
         append_kind const_patterns_kind kind;
         append_strategy const_patterns_discovery_strategy s;
         append_uint32 const_min_events_in_activity min_events;
         append_filter const_activity_filter_kind f;
         append_uint32 const_tandem_array_length max_length]
  (* 112-137 *)
  | LFromPatterns kind s max_length level =>
      default_part const_execute_frontend_part
        [append_pipeline const_pipeline
           (bind (patterns_part_grpc kind s max_length) (fun p =>
            bind (discover_activities_grpc level) (fun d => Ok [p; d])))]
  (* 223-224 *)
  | LSubstituteUnderlying => default_part const_substitute_underlying_events []
  (* 228-229 *)
  | LClearActivities => default_part const_clear_activities_related_stuff []
  (* 233-239 *)
  | LPrintUnderlyingCount =>
      complex_part u [const_underlying_events_count] const_get_number_of_underlying_events []
  (* 251-257 *)
  | LApplyClassExtractor regex filter_regex =>
      default_part const_apply_class_extractor
        [append_string const_event_class_regex regex; append_string const_regex filter_regex]
  (* 385-395 *)
  | LKMeans c clusters iterations =>
      complex_part u [const_labeled_traces_activities_dataset] const_clusterize_activities_from_traces_k_means
        (common_appends c ++ [append_uint32 const_clusters_count clusters;
                              append_uint32 const_learning_iterations_count iterations])
  (* 420-429 *)
  | LKMeansGrid c iterations =>
      complex_part u [const_labeled_traces_activities_dataset]
        const_clusterize_activities_from_traces_k_means_grid_search
        (common_appends c ++ [append_uint32 const_learning_iterations_count iterations])
  (* 454-464 *)
  | LDbscan c min_events =>
      complex_part u [const_labeled_traces_activities_dataset] const_clusterize_activities_from_traces_dbscan
        (common_appends c ++ [append_uint32 const_min_events_in_cluster_count min_events])
  (* 491-508 *)
  | LVisualize level class r =>
      complex_part u [const_traces_activities_dataset] const_create_traces_activities_dataset
        ([append_uint32 const_activity_level level] ++ append_opt_string const_event_class_regex class ++
         [append_enum const_activities_representation_source const_activities_repr_source_enum_name (repr_name r)])
  (* discovery_parts.py 12-33 *)
  | LAlpha => default_part const_discover_petri_net_alpha []
  | LAlphaPlus => default_part const_discover_petri_net_alpha_plus []
  | LAlphaPlusPlus => default_part const_discover_petri_net_alpha_plus_plus []
  | LAlphaPlusPlusNfc => default_part const_discover_petri_net_alpha_plus_plus_nfc []
  (* 50-59 *)
  | LHeuristic dependency positive relative and_threshold loop2 =>
      default_part const_discover_petri_net_heuristic
        [append_float const_dependency_relation_threshold dependency;
         append_uint32 const_positive_observations_threshold positive;
         append_float const_relative_to_best_threshold relative;
         append_float const_and_threshold and_threshold;
         append_float const_loop_length_two_threshold loop2]
  (* 80-90 *)
  | LFuzzy unary binary preserve ratio utility edge node =>
      default_part const_discover_graph_fuzzy
        [append_float const_unary_frequency_threshold unary;
         append_float const_binary_frequency_significance_threshold binary;
         append_float const_preserve_threshold preserve;
         append_float const_ratio_threshold ratio;
         append_float const_utility_rate utility;
         append_float const_edge_cutoff_threshold edge;
         append_float const_node_cutoff_threshold node]
  (* 99-105 *)
  | LSerializePnml path names_as_ids =>
      default_part const_serialize_petri_net_to_pnml
        [append_string const_path path; append_bool const_pnml_use_names_as_ids names_as_ids]
  (* 144-146 *)
  | LViewPetriNet => simple_part u const_petri_net
  (* 168-173 *)
  | LViewDfg => complex_part u [const_graph] const_discover_directly_follows_graph []
  (* 185-187 *)
  | LViewGraph => simple_part u const_graph
  (* 221-229 *)
  | LAnnotate k terminate =>
      complex_part u [const_petri_net; annotation_key k] (annotation_part k)
        [append_bool const_terminate_on_unreplayable_trace terminate]
  (* 287-288 *)
  | LEnsureMarking => default_part const_ensure_initial_marking []
  (* drawing_parts.py 31-38 *)
  | LDiversity _ => complex_part u [const_colors_event_log] const_traces_diversity_diagram []
  (* 78-87 *)
  | LPlacementsByName _ name =>
      complex_part u [const_colors_event_log] const_draw_placement_of_event_by_name
        [append_string const_event_name name]
  (* 130-136 *)
  | LPlacementsByRegex _ regex =>
      complex_part u [const_colors_event_log] const_draw_placement_of_event_by_regex
        [append_string const_regex regex]
  (* 179-182, 205-262 *)
  | LFullDiagram _ => complex_part u [const_colors_event_log] const_draw_full_activities_diagram []
  | LShortDiagram _ => complex_part u [const_colors_event_log] const_draw_short_activities_diagram []
  (* filtering_parts.py 13-17, 25-29, 37-41, 45-46 *)
  | LFilterCount n => default_part const_filter_traces_by_events_count [append_uint32 const_events_count n]
  | LFilterName name => default_part const_filter_events_by_name [append_string const_event_name name]
  | LFilterRegex regex => default_part const_filter_events_by_regex [append_string const_regex regex]
  | LFilterVariants => default_part const_filter_log_by_variants []
  (* mutation_parts.py 7-9, 13-15, 19-21 *)
  | LAddStartEnd => default_part const_add_start_end_artificial_events []
  | LAddStart => default_part const_add_start_artificial_events []
  | LAddEnd => default_part const_add_end_artificial_events []
  (* patterns_parts.py 22-28, 55-61 *)
  | LTandem maximal max_length class => tandem_grpc maximal max_length class
  | LRepeats k s class => repeats_grpc k s class
  (* util_parts.py 10-11, 15-18 *)
  | LUseNames => default_part const_use_names_event_log []
  | LPrintLog => complex_part u [const_names_event_log] const_get_names_event_log []
  (* xes_parts.py 7-8, 16-19, 23-24, 32-35 *)
  | LReadXes => default_part const_read_log_from_xes []
  | LWriteXes path => default_part const_write_log_to_xes [append_string const_path path]
  | LReadBxes => default_part const_read_log_from_bxes []
  | LWriteBxes path => default_part const_write_log_to_bxes [append_string const_path path]
  (* grpc_pipelines.py 188-191 *)
  | LPrintInfo => complex_part u [const_event_log_info] const_get_event_log_info []
  (* grpc_pipelines.py 123-124 *)
  | LAbstract _ => Err NotImplementedErr
  end.

(** Attributes of DiscoverActivitiesUntilNoMore2 that are sent, activities_parts.py 156-168
    (max_array_length is stored but never sent). *)
Record until := mkUntil { un_class : option pystr; un_kind : e_kind; un_narrow : e_narrow; un_level : Z;
                          un_strategy : e_strategy; un_undef : e_undef; un_max_length : Z;
                          un_adjusting : e_adjusting; un_min_unattached : Z; un_min_events : Z;
                          un_filter : e_filter; un_only_last : bool }.
(** Attributes of ClusterizeLogTracesDbscan that are sent, activities_parts.py 539-544. *)
Record log_dbscan := mkLogDbscan { ld_tolerance : pyfloat; ld_distance : e_distance; ld_repr : e_traces_repr;
                                   ld_min_events : Z; ld_class : option pystr }.

(** A member of Pipeline2.parts.  Every PipelinePart2 carries its uuid (grpc_pipelines.py 120-121). *)
Inductive part :=
| PLeaf (u : uuid) (l : leaf)
| PUntil (u : uuid) (c : until) (after : option (list part))
| PEachLog (u : uuid) (s : e_source) (level : Z) (inner : list part)
| PLogDbscan (u : uuid) (c : log_dbscan) (inner : list part)
| PBeforeAfter (u : uuid) (inner : list part)
| PNotAPart.

(** part.uuid.  grpc_pipelines/grpc_pipelines.py 121. *)
Definition part_uuid (p : part) : uuid :=
  match p with
  | PLeaf u _ | PUntil u _ _ | PEachLog u _ _ _ | PLogDbscan u _ _ | PBeforeAfter u _ => u
  | PNotAPart => 0%N
  end.

(** The configuration of DiscoverActivitiesUntilNoMore2.to_grpc_part, activities_parts.py 170-188. *)
Definition until_appends (c : until) (after : option (result (list gpart))) : list append :=
  [append_narrow const_narrow_activities (un_narrow c);
   append_adjusting const_adjusting_mode (un_adjusting c);
   append_uint32 const_activity_level (un_level c);
   append_uint32 const_events_count (un_min_unattached c);
   append_kind const_patterns_kind (un_kind c);
   append_strategy const_patterns_discovery_strategy (un_strategy c);
   append_uint32 const_min_events_in_activity (un_min_events c);
   append_undef const_undef_activity_handling_strategy (un_undef c);
   append_filter const_activity_filter_kind (un_filter c);
   append_bool const_execute_only_on_last_extraction (un_only_last c)]
  ++ append_opt_string const_event_class_regex (un_class c)
  ++ match after with Some p => [append_pipeline const_pipeline p] | None => [] end.

(** The loop of Pipeline2._create_grpc_pipeline, grpc_pipelines.py 88-96, over the conversion of one part
    ([mapM], in a form that can be nested in the recursion below). *)
Section Parts.
  Variable convert : part -> result gpart.
  Fixpoint convert_parts (l : list part) : result (list gpart) :=
    match l with
    | [] => Ok []
    | x :: xs => bind (convert x) (fun y => bind (convert_parts xs) (fun ys => Ok (y :: ys)))
    end.
End Parts.

(** to_grpc_part of every class; a list of parts is converted by Pipeline2._create_grpc_pipeline,
    grpc_pipelines.py 88-96: TypeError for a member that is not a part, first exception ends it. *)
Fixpoint to_grpc (p : part) : result gpart :=
  match p with
  | PLeaf u l => leaf_grpc u l
  (* activities_parts.py 170-191 *)
  | PUntil u c after =>
      default_part const_discover_activities_until_no_more
        (until_appends c (match after with Some l => Some (convert_parts to_grpc l) | None => None end))
  (* activities_parts.py 208-215 *)
  | PEachLog u s level inner =>
      default_part const_execute_with_each_activity_log
        [append_pipeline const_pipeline (convert_parts to_grpc inner);
         append_uint32 const_activity_level level;
         append_source const_activities_logs_source s]
  (* activities_parts.py 546-571 *)
  | PLogDbscan u c inner =>
      complex_part u [const_labeled_log_traces_dataset] const_clusterize_log_traces
        ([append_float const_tolerance (ld_tolerance c);
          append_enum const_distance const_distance_enum_name (distance_name (ld_distance c));
          append_enum const_traces_repr_source const_traces_repr_source_enum_name (traces_repr_name (ld_repr c));
          append_uint32 const_min_events_in_cluster_count (ld_min_events c);
          append_pipeline const_pipeline (convert_parts to_grpc inner)]
         ++ append_opt_string const_event_class_regex (ld_class c))
  (* util_parts.py 30-44: the pipeline is converted, with a PrintEventLogInfo2 before and after (their
     conversion cannot fail), then _create_default_pipeline_part() is called without a name *)
  | PBeforeAfter u inner => bind (convert_parts to_grpc inner) (fun _ => Err TypeError)
  | PNotAPart => Err TypeError
  end.

(** Pipeline2.to_grpc_pipeline / _create_grpc_pipeline, grpc_pipelines.py 80-96. *)
Definition pipeline_grpc (parts : list part) : result (list gpart) := convert_parts to_grpc parts.

(** append_parts_with_callbacks: Pipeline2 83-85 (an inner list is walked by the same loop),
    PipelinePart2 126-127, PipelinePart2WithCallback 134-136, DiscoverActivitiesUntilNoMore2
    (activities_parts.py 193-197), ExecuteWithEachActivityLog2 (217-219), ClusterizeLogTracesDbscan
    (573-575).  PrintEventlogInfoBeforeAfter does not override it.  The parts appended, in order.
    An object that is not a part has no such method; execute has raised TypeError before. *)
Fixpoint part_callbacks (p : part) : list part :=
  match p with
  | PLeaf u l => if leaf_callback l then [p] else []
  | PUntil _ _ (Some after) => flat_map part_callbacks after
  | PUntil _ _ None => []
  | PEachLog _ _ _ inner => flat_map part_callbacks inner
  | PLogDbscan _ _ inner => p :: flat_map part_callbacks inner
  | PBeforeAfter _ _ => []
  | PNotAPart => []
  end.
(** Pipeline2.append_parts_with_callbacks, grpc_pipelines/grpc_pipelines.py 83-85. *)
Definition callbacks (parts : list part) : list part := flat_map part_callbacks parts.

(** * The initial context *)

(** A value of the initial context dict: a plain str (the backend address), or a context value
    (context_values.py 15-125, grpc_pipelines.py 294-298). *)
Inductive ctxval :=
| CPlain (s : pystr)
| CBase
| CString (s : pystr)
| CFloat (x : pyfloat)
| CUint32 (z : Z)
| CBool (b : bool)
| CHashesLog (log : list (list Z))
| CNamesLog (log : list (list pystr))
| CEnum (ty v : pystr)
| CStrings (l : list pystr)
| CPipeline (parts : list part)
| CInfo (events traces classes : Z).

(** GrpcContextKeyValue(key=..., value=value.to_grpc_context_value()), grpc_pipelines.py 111-114.
    A plain str has no such method; EventLogInfo (context_values.py 122-125) gives a message of
    another type, refused by the constructor of GrpcContextKeyValue. *)
Definition ctxval_grpc (v : ctxval) : result gvalue :=
  match v with
  | CPlain _ => Err AttributeError
  | CBase => Ok GUnset
  | CString s => string_value s
  | CFloat x => float_value x
  | CUint32 z => uint32_value z
  | CBool b => bool_value b
  | CHashesLog log => hashes_log_value log
  | CNamesLog log => names_log_value log
  | CEnum ty v => enum_value ty v
  | CStrings l => strings_value l
  | CPipeline parts => bind (pipeline_grpc parts) (fun g => Ok (GPipeline g))
  | CInfo e t c =>
      bind (pb_uint32 e) (fun _ => bind (pb_uint32 t) (fun _ => bind (pb_uint32 c) (fun _ => Err TypeError)))
  end.

(** Pipeline2._create_initial_context, grpc_pipelines/grpc_pipelines.py 108-116. *)
Definition initial_context_grpc (ctx : dict pystr ctxval) : result (list (pystr * gvalue)) :=
  mapM (fun kv => bind (pb_string (fst kv)) (fun k => bind (ctxval_grpc (snd kv)) (fun v => Ok (k, v)))) ctx.

(** * Pipeline2.execute, grpc_pipelines.py 27-78 *)

(** ficus_backend_addr_key, line 21.  grpc_pipelines/grpc_pipelines.py 21. *)
Definition backend_key : pystr := str "backend".
(** The default address of line 31.  grpc_pipelines/grpc_pipelines.py 31. *)
Definition default_addr : pystr := str "localhost:8080".

(** What one call of execute does: the caller's dict afterwards, the address connected to, the request
    sent, the guid passed to DropExecutionResult, the world afterwards, and the value or exception.  grpc_pipelines/grpc_pipelines.py 27-78. *)
Record outcome (W : Type) := mkOut {
  o_ctx : dict pystr ctxval;
  o_addr : option pystr;
  o_request : option grequest;
  o_drop : option pystr;
  o_world : W;
  o_result : result gmessage
}.
Arguments mkOut {W}. Arguments o_ctx {W}. Arguments o_addr {W}. Arguments o_request {W}.
Arguments o_drop {W}. Arguments o_world {W}. Arguments o_result {W}.

(** map[key_name] = value for each context value, lines 60-62.  grpc_pipelines/grpc_pipelines.py 60-62. *)
Definition values_dict (values : list (pystr * gvalue)) : dict pystr gvalue :=
  fold_left (fun d kv => dset str_eq_dec d (fst kv) (snd kv)) values [].

(** The dict of lines 45-47.  grpc_pipelines/grpc_pipelines.py 45-47. *)
Definition registry (parts : list part) : dict uuid part :=
  fold_left (fun d p => dset N.eq_dec d (part_uuid p) p) parts [].

Section Execute.
  (** The world that callbacks and print change. *)
  Variable W : Type.
  (** part.execute_callback(values): any effect, may raise. *)
  Variable callback : part -> dict pystr gvalue -> W -> W * result unit.
  (** print. *)
  Variable print : pystr -> W -> W.
  (** stub.ExecutePipeline: the messages of the stream, and the exception that ends it if any. *)
  Variable server : pystr -> grequest -> list gmessage * option exc.
  (** stub.DropExecutionResult. *)
  Variable drop : pystr -> result unit.

  (** The loop of lines 51-72: the world, and last_result or the exception.  grpc_pipelines/grpc_pipelines.py 51-72. *)
  Fixpoint receive (reg : dict uuid part) (msgs : list gmessage) (failure : option exc)
      (last : option gmessage) (w : W) : W * result (option gmessage) :=
    match msgs with
    | [] => (w, match failure with Some e => Err e | None => Ok last end)
    | m :: rest =>
        match m with
        | MFinal _ => (w, Ok (Some m))
        | MPart id values =>
            match uuid_parse id with
            | Err e => (w, Err e)
            | Ok u =>
                match dget N.eq_dec reg u with
                | Some p =>
                    let '(w', r) := callback p (values_dict values) w in
                    match r with
                    | Ok _ => receive reg rest failure (Some m) w'
                    | Err e => (w', Err e)
                    end
                | None => receive reg rest failure (Some m) w
                end
            end
        | MLog s => receive reg rest failure (Some m) (print s w)
        | MUnset => receive reg rest failure (Some m) w
        end
    end.

  (** execute, 27-78.  [addr] must be a str: _common.encode of grpc calls its encode method.  grpc_pipelines/grpc_pipelines.py 27-78. *)
  Definition execute (parts : list part) (ctx : dict pystr ctxval) (w : W) : outcome W :=
    let addr := match dget str_eq_dec ctx backend_key with Some v => v | None => CPlain default_addr end in
    let ctx' := if dmem str_eq_dec ctx backend_key then ddel str_eq_dec ctx backend_key else ctx in
    match addr with
    | CPlain a =>
        match pipeline_grpc parts with
        | Err e => mkOut ctx' (Some a) None None w (Err e)
        | Ok g =>
            match initial_context_grpc ctx' with
            | Err e => mkOut ctx' (Some a) None None w (Err e)
            | Ok c =>
                let request := mkReq g c in
                let '(msgs, failure) := server a request in
                let '(w', r) := receive (registry (callbacks parts)) msgs failure None w in
                match r with
                | Err e => mkOut ctx' (Some a) (Some request) None w' (Err e)
                | Ok None => mkOut ctx' (Some a) (Some request) None w' (Err AttributeError)
                | Ok (Some m) =>
                    match m with
                    | MFinal (FSuccess guid) =>
                        mkOut ctx' (Some a) (Some request) (Some guid) w'
                          (match drop guid with Ok _ => Ok m | Err e => Err e end)
                    | _ => mkOut ctx' (Some a) (Some request) None w' (Ok m)
                    end
                end
            end
        end
    | _ => mkOut ctx' None None None w (Err AttributeError)
    end.
End Execute.
