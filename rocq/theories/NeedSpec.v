(** The types of the keys and the keys each part needs, as tables. *)
From Verif Require Import Py WireModel ConstModel ClientModel BackendModel.

(** The keys of the backend by the type of their values. *)
Definition key_groups : list (rtype * list pystr) :=
  [(TyString, [str "path"; str "event_name"; str "regex"; str "output_string"; str "event_class_regex"; str "activity_name";
               str "event_log_name"]);
   (TyU32, [str "tandem_array_length"; str "activity_level"; str "events_count"; str "min_activity_length";
            str "positive_observations_threshold"; str "clusters_count"; str "learning_iterations_count";
            str "min_events_in_cluster_count"]);
   (TyUsize, [str "underlying_events_count"]);
   (TyBool, [str "pnml_use_names_as_ids"; str "terminate_on_unreplayable_traces"; str "execute_only_on_last_extraction"]);
   (TyF64, [str "dependency_threshold"; str "relative_to_best_threshold"; str "and_threshold"; str "loop_length_two_threshold";
            str "unary_frequency_threshold"; str "binary_frequency_significance_threshold"; str "preserve_threshold";
            str "ratio_threshold"; str "utility_rate"; str "edge_cutoff_threshold"; str "node_cutoff_threshold";
            str "tolerance"]);
   (TyStrings, [str "event_classes_regexes"]);
   (TyNames, [str "names_event_log"]);
   (TyPipeline, [str "pipeline"]);
   (TyEnum (str "ActivityNarrowingKind"), [str "narrow_activities"]);
   (TyEnum (str "PatternsDiscoveryStrategy"), [str "patterns_discovery_strategy"]);
   (TyEnum (str "AdjustingMode"), [str "adjusting_mode"]);
   (TyEnum (str "PatternsKindDto"), [str "patterns_kind"]);
   (TyEnum (str "UndefActivityHandlingStrategyDto"), [str "undef_activity_handling_strategy"]);
   (TyEnum (str "ActivityInTraceFilterKind"), [str "activity_in_trace_filter_kind"]);
   (TyEnum (str "ActivitiesLogsSourceDto"), [str "activities_logs_source"]);
   (TyEnum (str "ActivityRepresentationSource"), [str "activities_repr_source"]);
   (TyEnum (str "FicusDistance"), [str "distance"]);
   (TyEnum (str "TracesRepresentationSource"), [str "traces_repr_source"]);
   (TyOther (str "XesEventLogImpl"), [str "event_log"]);
   (TyOther (str "EventLogInfo"), [str "event_log_info"]);
   (TyOther (str "Activities"), [str "activities"]);
   (TyOther (str "RepeatSets"), [str "repeat_sets"]);
   (TyOther (str "TracesActivities"), [str "trace_activities"]);
   (TyOther (str "Patterns"), [str "patterns"]);
   (TyOther (str "DefaultPetriNet"), [str "petri_net"]);
   (TyOther (str "ActivitiesToLogs"), [str "activities_to_logs"]);
   (TyOther (str "Vec<Vec<u64>>"), [str "hashes_event_log"]);
   (TyOther (str "ColorsEventLog"), [str "colors_event_log"]);
   (TyOther (str "ColorsHolder"), [str "colors_holder"]);
   (TyOther (str "DefaultGraph"), [str "graph"]);
   (TyOther (str "HashMap<u64, f64>"), [str "petri_net_frequency_annotation"; str "petri_net_trace_frequency_annotation"]);
   (TyOther (str "HashMap<u64, usize>"), [str "petri_net_count_annotation"]);
   (TyOther (str "FicusDataset"), [str "traces_activities_dataset"; str "log_traces_dataset"]);
   (TyOther (str "LabeledDataset"), [str "labeled_traces_activities_dataset"; str "labeled_log_traces_dataset"])].

(** Every value has the type of its key. *)
Definition well_typed (c : list (pystr * rvalue)) : Prop :=
  forall k v, In (k, v) c -> exists ks, In (value_type v, ks) key_groups /\ In k ks.
(** The key has a value. *)
Definition given (c : list (pystr * rvalue)) (k : pystr) : Prop := In k (map fst c).

(** Parts and the keys they cannot do without. *)
Definition needs : list (list pystr * list pystr) :=
  [([str "DiscoverActivities"], [str "activity_level"]);
   ([str "DiscoverActivitiesInstances"],
    [str "activity_in_trace_filter_kind"; str "min_activity_length"; str "narrow_activities"]);
   ([str "CreateLogFromActivities"], [str "undef_activity_handling_strategy"]);
   ([str "DiscoverActivitiesInUnattachedSubTraces"],
    [str "activity_in_trace_filter_kind"; str "events_count"; str "min_activity_length"; str "narrow_activities"]);
   ([str "ApplyClassExtractor"], [str "regex"; str "event_class_regex"]);
   ([str "ClusterizeActivitiesFromTracesKMeans"],
    [str "activities_repr_source"; str "activity_level"; str "clusters_count"; str "distance";
     str "learning_iterations_count"; str "tolerance"]);
   ([str "ClusterizeActivitiesFromTracesKMeansGridSearch"],
    [str "activities_repr_source"; str "activity_level"; str "distance"; str "learning_iterations_count"; str "tolerance"]);
   ([str "ClusterizeActivitiesFromTracesDbscan"],
    [str "activities_repr_source"; str "activity_level"; str "distance"; str "min_events_in_cluster_count"; str "tolerance"]);
   ([str "CreateTracesActivitiesDataset"], [str "activities_repr_source"; str "activity_level"]);
   ([str "ClusterizeLogTraces"],
    [str "distance"; str "min_events_in_cluster_count"; str "pipeline"; str "tolerance"; str "traces_repr_source"]);
   ([str "FindMaximalRepeats"; str "FindSuperMaximalRepeats"; str "FindNearSuperMaximalRepeats"],
    [str "patterns_discovery_strategy"]);
   ([str "DiscoverPetriNetHeuristic"],
    [str "and_threshold"; str "dependency_threshold"; str "loop_length_two_threshold"; str "positive_observations_threshold";
     str "relative_to_best_threshold"]);
   ([str "DiscoverFuzzyGraph"],
    [str "binary_frequency_significance_threshold"; str "edge_cutoff_threshold"; str "node_cutoff_threshold";
     str "preserve_threshold"; str "ratio_threshold"; str "unary_frequency_threshold"; str "utility_rate"]);
   ([str "SerializePetriNet"], [str "path"; str "pnml_use_names_as_ids"]);
   ([str "AnnotatePetriNetWithCount"; str "AnnotatePetriNetWithFrequency"; str "AnnotatePetriNetWithTraceFrequency"],
    [str "terminate_on_unreplayable_traces"]);
   ([str "DrawPlacementOfEventByName"; str "FilterEventsByName"], [str "event_name"]);
   ([str "DrawPlacementOfEventsByRegex"; str "FilterEventsByRegex"], [str "regex"]);
   ([str "FilterTracesByEventsCount"], [str "events_count"]);
   ([str "WriteLogToXes"; str "WriteLogToBxes"], [str "path"]);
   ([str "ExecuteFrontendPipeline"], [str "pipeline"])].
(** The two parts whose missing key is a panic, not an error. *)
Definition tandem_parts : list pystr := [str "FindPrimitiveTandemArrays"; str "FindMaximalTandemArrays"].
(** The parts whose needs depend on values. *)
Definition several_part : pystr := str "DiscoverActivitiesForSeveralLevels".
Definition until_part : pystr := str "DiscoverActivitiesUntilNoMore".
Definition each_part : pystr := str "ExecuteWithEachActivityLog".

(** The kind of patterns asked for is one of tandem arrays. *)
Definition tandem_asked (c : list (pystr * rvalue)) : Prop :=
  exists v, dget str_eq_dec c (str "patterns_kind") = Some (VEnum (str "PatternsKindDto") v) /\
    (v = str "PrimitiveTandemArrays" \/ v = str "MaximalTandemArrays").
