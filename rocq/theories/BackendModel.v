(** The Rust backend's side of the protocol (src/rust/ficus_backend/src, paths below relative to it): which
    keys and parts it knows, how it reads a request, which configuration its parts read, and how it
    writes context values.

    The algorithms behind the parts are not modelled: a part is a function on the context that may send
    messages.  A panic of the executing task is [Err AssertionErr]. *)
From Coq Require Import SpecFloat.
From Verif Require Import Py WireModel.

(** * Keys and parts *)

(** The type parameter of a DefaultContextKey.  pipelines/keys/context_keys.rs 56-623 (the types of the keys). *)
Inductive rtype :=
| TyString | TyU32 | TyBool | TyF64 | TyUsize | TyStrings | TyNames | TyPipeline
| TyEnum (name : pystr)
| TyOther (name : pystr).
(** TypeId equality (downcast_ref).  utils/user_data/user_data.rs 99-104. *)
Definition rtype_eq_dec (a b : rtype) : {a = b} + {a <> b}.
Proof. decide equality; apply str_eq_dec. Defined.

(** ContextKeys::new with the type of each key, pipelines/keys/context_keys_init.rs; the comments give
    the line of the name and of insert_key.  pipelines/keys/context_keys_init.rs 64-127, 208-465. *)
Definition backend_keys : list (pystr * rtype) :=
  [(str "path", TyString); (* 64, 208 *)
   (str "tandem_array_length", TyU32); (* 65, 221 *)
   (str "activity_level", TyU32); (* 66, 225 *)
   (str "narrow_activities", TyEnum (str "ActivityNarrowingKind")); (* 67, 229 *)
   (str "event_name", TyString); (* 68, 233 *)
   (str "regex", TyString); (* 69, 237 *)
   (str "patterns_discovery_strategy", TyEnum (str "PatternsDiscoveryStrategy")); (* 70, 241 *)
   (str "output_string", TyString); (* 71, 245 *)
   (str "event_log_info", TyOther (str "EventLogInfo")); (* 72, 249 *)
   (str "underlying_events_count", TyUsize); (* 73, 301 *)
   (str "events_count", TyU32); (* 74, 305 *)
   (str "event_classes_regexes", TyStrings); (* 75, 309 *)
   (str "adjusting_mode", TyEnum (str "AdjustingMode")); (* 76, 313 *)
   (str "event_class_regex", TyString); (* 77, 317 *)
   (str "patterns_kind", TyEnum (str "PatternsKindDto")); (* 78, 321 *)
   (str "pipeline", TyPipeline); (* 79, 325 *)
   (str "min_activity_length", TyU32); (* 80, 329 *)
   (str "undef_activity_handling_strategy", TyEnum (str "UndefActivityHandlingStrategyDto")); (* 81, 333 *)
   (str "activity_in_trace_filter_kind", TyEnum (str "ActivityInTraceFilterKind")); (* 82, 337 *)
   (str "activities_logs_source", TyEnum (str "ActivitiesLogsSourceDto")); (* 83, 341 *)
   (str "pnml_use_names_as_ids", TyBool); (* 84, 345 *)
   (str "dependency_threshold", TyF64); (* 85, 353 *)
   (str "positive_observations_threshold", TyU32); (* 86, 357 *)
   (str "relative_to_best_threshold", TyF64); (* 87, 361 *)
   (str "and_threshold", TyF64); (* 88, 365 *)
   (str "loop_length_two_threshold", TyF64); (* 89, 369 *)
   (str "unary_frequency_threshold", TyF64); (* 90, 373 *)
   (str "binary_frequency_significance_threshold", TyF64); (* 91, 377 *)
   (str "preserve_threshold", TyF64); (* 92, 381 *)
   (str "ratio_threshold", TyF64); (* 93, 385 *)
   (str "utility_rate", TyF64); (* 94, 389 *)
   (str "edge_cutoff_threshold", TyF64); (* 95, 393 *)
   (str "node_cutoff_threshold", TyF64); (* 96, 397 *)
   (str "event_log", TyOther (str "XesEventLogImpl")); (* 104, 253 *)
   (str "activities", TyOther (str "Activities")); (* 105, 257 *)
   (str "repeat_sets", TyOther (str "RepeatSets")); (* 106, 261 *)
   (str "trace_activities", TyOther (str "TracesActivities")); (* 107, 265 *)
   (str "patterns", TyOther (str "Patterns")); (* 108, 269 *)
   (str "petri_net", TyOther (str "DefaultPetriNet")); (* 109, 273 *)
   (str "activities_to_logs", TyOther (str "ActivitiesToLogs")); (* 110, 277 *)
   (str "activity_name", TyString); (* 111, 281 *)
   (str "hashes_event_log", TyOther (str "Vec<Vec<u64>>")); (* 112, 285 *)
   (str "names_event_log", TyNames); (* 113, 289 *)
   (str "colors_event_log", TyOther (str "ColorsEventLog")); (* 114, 293 *)
   (str "colors_holder", TyOther (str "ColorsHolder")); (* 115, 297 *)
   (str "graph", TyOther (str "DefaultGraph")); (* 116, 349 *)
   (str "petri_net_frequency_annotation", TyOther (str "HashMap<u64, f64>")); (* 118, 405 *)
   (str "petri_net_count_annotation", TyOther (str "HashMap<u64, usize>")); (* 117, 401 *)
   (str "petri_net_trace_frequency_annotation", TyOther (str "HashMap<u64, f64>")); (* 119, 409 *)
   (str "terminate_on_unreplayable_traces", TyBool); (* 97, 413 *)
   (str "clusters_count", TyU32); (* 98, 417 *)
   (str "learning_iterations_count", TyU32); (* 99, 421 *)
   (str "tolerance", TyF64); (* 100, 425 *)
   (str "min_events_in_cluster_count", TyU32); (* 101, 429 *)
   (str "traces_activities_dataset", TyOther (str "FicusDataset")); (* 120, 433 *)
   (str "labeled_traces_activities_dataset", TyOther (str "LabeledDataset")); (* 121, 437 *)
   (str "activities_repr_source", TyEnum (str "ActivityRepresentationSource")); (* 122, 441 *)
   (str "distance", TyEnum (str "FicusDistance")); (* 123, 445 *)
   (str "execute_only_on_last_extraction", TyBool); (* 124, 449 *)
   (str "event_log_name", TyString); (* 102, 453 *)
   (str "log_traces_dataset", TyOther (str "FicusDataset")); (* 126, 457 *)
   (str "labeled_log_traces_dataset", TyOther (str "LabeledDataset")); (* 125, 461 *)
   (str "traces_repr_source", TyEnum (str "TracesRepresentationSource")) (* 127, 465 *)
  ].
(** PipelineParts::new, pipelines/pipeline_parts.rs 27-84, with the names of pipelines/parts_names.rs
    (line in the comment). *)
Definition backend_parts : list pystr :=
  [str "ReadLogFromXes"; (* 4 *)
   str "WriteLogToXes"; (* 5 *)
   str "FindPrimitiveTandemArrays"; (* 6 *)
   str "FindMaximalTandemArrays"; (* 7 *)
   str "FindMaximalRepeats"; (* 8 *)
   str "FindSuperMaximalRepeats"; (* 9 *)
   str "FindNearSuperMaximalRepeats"; (* 10 *)
   str "DiscoverActivities"; (* 11 *)
   str "DiscoverActivitiesInstances"; (* 12 *)
   str "CreateLogFromActivities"; (* 13 *)
   str "FilterEventsByName"; (* 14 *)
   str "FilterEventsByRegex"; (* 15 *)
   str "FilterLogByVariants"; (* 16 *)
   str "DrawPlacementOfEventByName"; (* 17 *)
   str "DrawPlacementOfEventsByRegex"; (* 18 *)
   str "DrawFullActivitiesDiagram"; (* 19 *)
   str "DrawShortActivitiesDiagram"; (* 20 *)
   str "GetEventLogInfo"; (* 21 *)
   str "ClearActivities"; (* 22 *)
   str "GetUnderlyingEventsCount"; (* 23 *)
   str "FilterTracesByEventsCount"; (* 24 *)
   str "TracesDiversityDiagram"; (* 25 *)
   str "GetNamesEventLog"; (* 26 *)
   str "GetHashesEventLog"; (* 27 *)
   str "UseNamesEventLog"; (* 28 *)
   str "DiscoverActivitiesForSeveralLevels"; (* 29 *)
   str "DiscoverActivitiesInUnattachedSubTraces"; (* 30 *)
   str "DiscoverActivitiesUntilNoMore"; (* 31 *)
   str "ExecuteWithEachActivityLog"; (* 32 *)
   str "SubstituteUnderlyingEvents"; (* 33 *)
   str "ExecuteFrontendPipeline"; (* 34 *)
   str "ApplyClassExtractor"; (* 35 *)
   str "DiscoverPetriNetAlpha"; (* 37 *)
   str "SerializePetriNet"; (* 36 *)
   str "AddArtificialStartEndEvents"; (* 38 *)
   str "AddArtificialStartEvents"; (* 39 *)
   str "AddArtificialEndEvents"; (* 40 *)
   str "DiscoverPetriNetAlphaPlus"; (* 41 *)
   str "DiscoverPetriNetAlphaPlusPlus"; (* 42 *)
   str "DiscoverPetriNetAlphaPlusPlusNfc"; (* 43 *)
   str "DiscoverDirectlyFollowsGraph"; (* 44 *)
   str "DiscoverPetriNetHeuristic"; (* 45 *)
   str "DiscoverFuzzyGraph"; (* 46 *)
   str "AnnotatePetriNetWithCount"; (* 50 *)
   str "AnnotatePetriNetWithFrequency"; (* 51 *)
   str "AnnotatePetriNetWithTraceFrequency"; (* 52 *)
   str "EnsureInitialMarking"; (* 53 *)
   str "ReadLogFromBxes"; (* 47 *)
   str "ClusterizeActivitiesFromTracesKMeans"; (* 55 *)
   str "ClusterizeActivitiesFromTracesKMeansGridSearch"; (* 56 *)
   str "ClusterizeActivitiesFromTracesDbscan"; (* 57 *)
   str "CreateTracesActivitiesDataset"; (* 58 *)
   str "WriteLogToBxes"; (* 48 *)
   str "ClusterizeLogTraces" (* 59 *)
  ].

(** ContextKeys::find_key, pipelines/keys/context_keys.rs.  pipelines/keys/context_keys.rs 45-47. *)
Definition find_key (name : pystr) : option rtype := dget str_eq_dec backend_keys name.
(** PipelineParts::find_part.  pipelines/pipeline_parts.rs 17-19. *)
Definition find_part (name : pystr) : bool := existsb (str_eqb name) backend_parts.

(** The enum types known to put_into_user_data (grpc/converters.rs 81-104) with the strings their
    FromStr accepts.  grpc/converters.rs 81-104. *)
Definition backend_enums : list (pystr * list pystr) :=
  [(str "PatternsDiscoveryStrategy", (* features/analysis/patterns/contexts.rs 19-29 *)
    [str "FromAllTraces"; str "FromSingleMergedTrace"]);
   (str "AdjustingMode", (* features/analysis/patterns/activity_instances.rs 323-333 *)
    [str "FromAllLog"; str "FromUnattachedSubTraces"]);
   (str "PatternsKindDto", (* pipelines/patterns_parts.rs 27-40 *)
    [str "PrimitiveTandemArrays"; str "MaximalTandemArrays"; str "MaximalRepeats"; str "SuperMaximalRepeats";
     str "NearSuperMaximalRepeats"]);
   (str "UndefActivityHandlingStrategyDto", (* pipelines/activities_parts.rs 49-60 *)
    [str "DontInsert"; str "InsertAsSingleEvent"; str "InsertAllEvents"]);
   (str "ActivityNarrowingKind", (* activity_instances.rs 42-54 *)
    [str "DontNarrow"; str "StayTheSame"; str "NarrowUp"; str "NarrowDown"]);
   (str "ActivityInTraceFilterKind", (* activity_instances.rs 62-72 *)
    [str "NoFilter"; str "DefaultFilter"]);
   (str "ActivitiesLogsSourceDto", (* activities_parts.rs 67-77 *)
    [str "Log"; str "TracesActivities"]);
   (str "ActivityRepresentationSource", (* features/clustering/activities/activities_params.rs 15-26 *)
    [str "EventClasses"; str "SubTraces"; str "SubTracesUnderlyingEvents"]);
   (str "FicusDistance", (* utils/distance/distance.rs 14-26 *)
    [str "Cosine"; str "L1"; str "L2"; str "Levenshtein"]);
   (str "TracesRepresentationSource", (* features/clustering/traces/traces_params.rs 24-35 *)
    [str "Events"; str "UnderlyingEvents"; str "DeepestUnderlyingEvents"])].

(** * Values and parts as the backend holds them *)

(** Arc, features/discovery/petri_net/arc.rs: id, place, tokens.  arc.rs 4-9. *)
Record rarc := mkRArc { ra_id : Z; ra_place : Z; ra_tokens : Z }.
(** Transition, features/discovery/petri_net/transition.rs.  transition.rs 6-16. *)
Record rtransition := mkRTransition { rt_id : Z; rt_in : list rarc; rt_out : list rarc; rt_data : option pystr }.
(** DefaultPetriNet, features/discovery/petri_net/petri_net.rs: places and transitions are hash maps by
    id, here the lists all_places() and all_transitions() in some order.  petri_net.rs 26-35. *)
Record rnet := mkRNet { rn_places : list (Z * pystr); rn_transitions : list rtransition;
                        rn_initial : option (list (Z * Z)); rn_final : option (list (Z * Z)) }.
(** DefaultGraph, utils/graph/graph.rs: all_nodes() and all_edges() in some order.  graph.rs 9-16, 34-47. *)
Record rgraph := mkRGraph { rg_nodes : list (Z * option pystr); rg_edges : list (Z * Z * option pystr) }.
(** FicusDataset, utils/dataset/dataset.rs 3-7. *)
Record rdataset := mkRDataset { rd_values : list (list pyfloat); rd_columns : list pystr; rd_names : list pystr }.
(** ColoredRectangle, utils/colors.rs: colour (u8 each), start, length (usize), name.  utils/colors.rs 76-81. *)
Record rrect := mkRRect { rr_color : Z * Z * Z; rr_start : Z; rr_length : Z; rr_name : pystr }.

(** A value of UserDataImpl (Box<dyn Any>) and a part of a Pipeline.  utils/user_data/user_data.rs 6-8; pipelines/pipelines.rs 83-87; grpc/get_context_pipeline.rs 25-29. *)
Inductive rvalue :=
| VString (s : pystr)
| VU32 (n : Z)
| VBool (b : bool)
| VF64 (f : pyfloat)
| VUsize (n : Z)
| VStrings (l : list pystr)
| VNames (log : list (list pystr))
| VEnum (ty v : pystr)
| VPipeline (parts : list rpart)
| VHashes (log : list (list Z))
| VColors (log : list (list rrect))
| VInfo (events traces classes : Z)
| VNet (n : rnet)
| VGraph (g : rgraph)
| VCounts (l : list (Z * Z))
| VFreqs (l : list (Z * pyfloat))
| VDataset (d : rdataset)
| VLabeled (d : rdataset) (labels : list Z) (colors : list (Z * Z * Z))
| VOther (ty : pystr)
with rpart :=
(* DefaultPipelinePart, pipelines/pipelines.rs 83-87 *)
| RDefault (name : pystr) (config : list (pystr * rvalue))
(* GetContextValuePipelinePart, grpc/get_context_pipeline.rs 25-29 *)
| RGet (keys : list pystr) (u : uuid) (before : option (pystr * list (pystr * rvalue))).

(** TypeId of a value.  utils/user_data/user_data.rs 99-104. *)
Definition value_type (v : rvalue) : rtype :=
  match v with
  | VString _ => TyString | VU32 _ => TyU32 | VBool _ => TyBool | VF64 _ => TyF64 | VUsize _ => TyUsize
  | VStrings _ => TyStrings | VNames _ => TyNames | VEnum ty _ => TyEnum ty | VPipeline _ => TyPipeline
  | VHashes _ => TyOther (str "Vec<Vec<u64>>")
  | VColors _ => TyOther (str "ColorsEventLog")
  | VInfo _ _ _ => TyOther (str "EventLogInfo")
  | VNet _ => TyOther (str "DefaultPetriNet")
  | VGraph _ => TyOther (str "DefaultGraph")
  | VCounts _ => TyOther (str "HashMap<u64, usize>")
  | VFreqs _ => TyOther (str "HashMap<u64, f64>")
  | VDataset _ => TyOther (str "FicusDataset")
  | VLabeled _ _ _ => TyOther (str "LabeledDataset")
  | VOther ty => TyOther ty
  end.

(** UserDataImpl (utils/user_data/user_data.rs); key ids are one to one with names.  utils/user_data/user_data.rs 6-8, 44-59. *)
Notation userdata := (dict pystr rvalue).

(** * Reading a request *)

(** A panic: todo!(), or unwrap on None.  grpc/converters.rs 70-118; grpc/backend_service.rs 220-284. *)
Notation panic := (Err AssertionErr).

(** Loops over the members of a message, in a form that can be nested in the recursion below. *)
Section Loops.
  Variable read : gvalue -> result (option rvalue).
  Variable part : gpart -> result rpart.
  (** FicusService::to_pipeline, grpc/backend_service.rs 220-253. *)
  Fixpoint read_parts (l : list gpart) : result (list rpart) :=
    match l with
    | [] => Ok []
    | g :: rest => bind (part g) (fun p => bind (read_parts rest) (fun ps => Ok (p :: ps)))
    end.
  (** The loop of find_default_part, grpc/backend_service.rs 272-278: unknown keys are skipped. *)
  Fixpoint read_config (l : list (pystr * gvalue)) (data : userdata) : result userdata :=
    match l with
    | [] => Ok data
    | (k, v) :: rest =>
        match find_key k with
        | None => read_config rest data
        | Some _ => bind (read v) (fun o =>
            read_config rest (match o with Some x => dset str_eq_dec data k x | None => data end))
        end
    end.
End Loops.

(** parse_grpc_enum and the chain of type names, grpc/converters.rs 81-104, 121-125. *)
Definition read_enum (ty v : pystr) : option rvalue :=
  match dget str_eq_dec backend_enums ty with
  | Some names => if existsb (str_eqb v) names then Some (VEnum ty v) else None
  | None => None
  end.

(** [as f64] of an f32: the same number in the other format.  grpc/converters.rs 113. *)
Definition as_f64 (x : pyfloat) : pyfloat :=
  match x with
  | S754_finite s m e => binary_normalize 53 1024 (cond_Zopp s (Zpos m)) e s
  | _ => x
  end.

(** put_into_user_data, grpc/converters.rs 65-119: the value stored, None when nothing is.
    One part of to_pipeline, grpc/backend_service.rs 223-249, with find_default_part 265-284. *)
Fixpoint read_value (v : gvalue) : result (option rvalue) :=
  match v with
  | GUnset => panic
  | GString s => Ok (Some (VString s))
  | GHashesLog _ => panic
  | GNamesLog log => Ok (Some (VNames log))
  | GUint32 n => Ok (Some (VU32 n))
  | GBool b => Ok (Some (VBool b))
  | GColors _ => Ok None
  | GEnum ty x => Ok (read_enum ty x)
  | GInfo _ => panic
  | GStrings l => Ok (Some (VStrings l))
  | GPipeline parts => bind (read_parts read_part parts) (fun ps => Ok (Some (VPipeline ps)))
  | GPetriNet _ | GGraph _ => panic
  | GFloat f => Ok (Some (VF64 (as_f64 f)))
  | GCounts _ | GFreqs _ | GDataset _ | GLabeled _ => panic
  end
with read_part (g : gpart) : result rpart :=
  match g with
  | GDefault name config =>
      bind (read_config read_value config []) (fun data =>
      if find_part name then Ok (RDefault name data) else panic)
  | GSimple key frontend =>
      match uuid_parse frontend with Ok u => Ok (RGet [key] u None) | Err _ => panic end
  | GComplex keys before config frontend =>
      match uuid_parse frontend with
      | Ok u => bind (read_config read_value config []) (fun data =>
                if find_part before then Ok (RGet keys u (Some (before, data))) else panic)
      | Err _ => panic
      end
  end.

(** create_initial_context, grpc/converters.rs 53-63: an unknown key is a panic. *)
Fixpoint initial_context (l : list (pystr * gvalue)) (data : userdata) : result userdata :=
  match l with
  | [] => Ok data
  | (k, v) :: rest =>
      match find_key k with
      | None => panic
      | Some _ => bind (read_value v) (fun o =>
          initial_context rest (match o with Some x => dset str_eq_dec data k x | None => data end))
      end
  end.

(** * Configuration read by the parts *)

(** get_user_data on a key of the backend (pipelines/pipeline_parts.rs 120-130, user_data.rs 99-104):
    a value of another type is a panic, a missing one an error of the pipeline (here KeyError). *)
Definition get_config (config : userdata) (key : pystr) : result rvalue :=
  match find_key key with
  | None => panic
  | Some t =>
      match dget str_eq_dec config key with
      | None => Err KeyError
      | Some v => if rtype_eq_dec (value_type v) t then Ok v else panic
      end
  end.
(** Reading several keys in turn.  pipelines/pipeline_parts.rs 120-130. *)
Definition get_all (config : userdata) (keys : list pystr) : result unit :=
  bind (mapM (get_config config) keys) (fun _ => Ok tt).
(** config.concrete(key).unwrap().  pipelines/patterns_parts.rs 73-80. *)
Definition get_unwrap (config : userdata) (key : pystr) : result rvalue :=
  match get_config config key with Err _ => panic | r => r end.

(** The configuration read by find_patterns, pipelines/patterns_parts.rs 73-137. *)
Definition find_patterns_config (config : userdata) : result unit :=
  bind (get_config config (str "patterns_kind")) (fun kind =>
  bind (match kind with
        | VEnum _ v =>
            if str_eqb v (str "PrimitiveTandemArrays") || str_eqb v (str "MaximalTandemArrays")
            then bind (get_unwrap config (str "tandem_array_length")) (fun _ => Ok tt)
            else bind (get_config config (str "patterns_discovery_strategy")) (fun _ => Ok tt)
        | _ => panic
        end) (fun _ =>
  bind (get_config config (str "activity_level")) (fun _ => Ok tt))).

(** The configuration of one level of DiscoverActivitiesForSeveralLevels, pipelines/activities_parts.rs
    187-196, built from its own one ([copy] reads a key that has been read before).  The addition is on
    u32 (an overflow panics in a debug build). *)
Definition level_config (config : userdata) (index : Z) (class : pystr) : userdata :=
  let copy k := match dget str_eq_dec config k with Some v => [(k, v)] | None => [] end in
  copy (str "patterns_kind") ++ [(str "event_class_regex", VString class)] ++ copy (str "adjusting_mode") ++
  match dget str_eq_dec config (str "activity_level") with
  | Some (VU32 n) => [(str "activity_level", VU32 ((n + index) mod 2 ^ 32))]
  | _ => []
  end ++ copy (str "patterns_discovery_strategy") ++ copy (str "narrow_activities") ++
  copy (str "events_count") ++ copy (str "min_activity_length") ++ copy (str "activity_in_trace_filter_kind").

(** The configuration read by each registered part when it runs to its end (the order of reads is the
    order of the text where it matters for the kind of failure; reads of the optional event_class_regex
    and pipeline cannot fail on values of the right type and are left out).  pipelines/activities_parts.rs, patterns_parts.rs, discovery_parts.rs and others; the lines are at each case (from activities_parts.rs 81 on). *)
Definition part_config (name : pystr) (config : userdata) : result unit :=
  let is s := str_eqb name s in
  (* activities_parts.rs 81-84 *)
  if is (str "DiscoverActivities") then get_all config [str "activity_level"]
  (* 118-127 *)
  else if is (str "DiscoverActivitiesInstances") then
    get_all config [str "narrow_activities"; str "min_activity_length"; str "activity_in_trace_filter_kind"]
  (* 148-155 *)
  else if is (str "CreateLogFromActivities") then get_all config [str "undef_activity_handling_strategy"]
  (* 173-205, 207-246, and 248-265 on the configuration of each level *)
  else if is (str "DiscoverActivitiesForSeveralLevels") then
    bind (get_all config [str "event_classes_regexes"; str "activity_level"; str "patterns_kind";
                          str "adjusting_mode"; str "patterns_discovery_strategy"; str "narrow_activities";
                          str "events_count"; str "min_activity_length"; str "activity_in_trace_filter_kind"])
      (fun _ =>
       match dget str_eq_dec config (str "event_classes_regexes") with
       | Some (VStrings classes) =>
           bind (mapM (fun ic =>
                   let level := level_config config (Z.of_nat (fst ic)) (snd ic) in
                   bind (get_all level [str "adjusting_mode"]) (fun _ =>
                   bind (find_patterns_config level) (fun _ =>
                   get_all level [str "narrow_activities"; str "events_count"; str "min_activity_length";
                                  str "activity_in_trace_filter_kind"])))
                   (combine (seq 0 (length classes)) (rev classes)))
             (fun _ => Ok tt)
       | _ => panic
       end)
  (* 248-265 *)
  else if is (str "DiscoverActivitiesInUnattachedSubTraces") then
    get_all config [str "narrow_activities"; str "events_count"; str "min_activity_length";
                    str "activity_in_trace_filter_kind"]
  (* 347-387 *)
  else if is (str "DiscoverActivitiesUntilNoMore") then
    bind (get_all config [str "activity_level"; str "execute_only_on_last_extraction"]) (fun _ =>
    bind (find_patterns_config config) (fun _ =>
    get_all config [str "narrow_activities"; str "min_activity_length"; str "activity_in_trace_filter_kind";
                    str "undef_activity_handling_strategy"]))
  (* 398-415 *)
  else if is (str "ExecuteWithEachActivityLog") then
    bind (get_all config [str "pipeline"; str "activities_logs_source"]) (fun _ =>
    match dget str_eq_dec config (str "activities_logs_source") with
    | Some (VEnum _ v) => if str_eqb v (str "Log") then Ok tt else get_all config [str "activity_level"]
    | _ => panic
    end)
  (* 449-457 *)
  else if is (str "ApplyClassExtractor") then get_all config [str "event_class_regex"; str "regex"]
  (* 491-505, 526-551 *)
  else if is (str "ClusterizeActivitiesFromTracesKMeans") then
    get_all config [str "activity_level"; str "activities_repr_source"; str "tolerance"; str "distance";
                    str "clusters_count"; str "learning_iterations_count"]
  (* 561-578 *)
  else if is (str "ClusterizeActivitiesFromTracesKMeansGridSearch") then
    get_all config [str "learning_iterations_count"; str "activity_level"; str "activities_repr_source";
                    str "tolerance"; str "distance"]
  (* 580-593 *)
  else if is (str "ClusterizeActivitiesFromTracesDbscan") then
    get_all config [str "min_events_in_cluster_count"; str "activity_level"; str "activities_repr_source";
                    str "tolerance"; str "distance"]
  (* 595-611 *)
  else if is (str "CreateTracesActivitiesDataset") then get_all config [str "activity_level"; str "activities_repr_source"]
  (* 613-652 *)
  else if is (str "ClusterizeLogTraces") then
    get_all config [str "tolerance"; str "distance"; str "traces_repr_source"; str "pipeline";
                    str "min_events_in_cluster_count"]
  (* patterns_parts.rs 43-59, 92-99 *)
  else if is (str "FindMaximalRepeats") || is (str "FindSuperMaximalRepeats") || is (str "FindNearSuperMaximalRepeats") then
    get_all config [str "patterns_discovery_strategy"]
  (* 61-80 *)
  else if is (str "FindPrimitiveTandemArrays") || is (str "FindMaximalTandemArrays") then
    bind (get_unwrap config (str "tandem_array_length")) (fun _ => Ok tt)
  (* discovery_parts.rs 97-103 *)
  else if is (str "DiscoverPetriNetHeuristic") then
    get_all config [str "dependency_threshold"; str "positive_observations_threshold";
                    str "relative_to_best_threshold"; str "and_threshold"; str "loop_length_two_threshold"]
  (* 121-129 *)
  else if is (str "DiscoverFuzzyGraph") then
    get_all config [str "unary_frequency_threshold"; str "binary_frequency_significance_threshold";
                    str "preserve_threshold"; str "ratio_threshold"; str "utility_rate";
                    str "edge_cutoff_threshold"; str "node_cutoff_threshold"]
  (* 32-36 *)
  else if is (str "SerializePetriNet") then get_all config [str "path"; str "pnml_use_names_as_ids"]
  (* annotations_parts.rs 36 *)
  else if is (str "AnnotatePetriNetWithCount") || is (str "AnnotatePetriNetWithFrequency") ||
          is (str "AnnotatePetriNetWithTraceFrequency") then
    get_all config [str "terminate_on_unreplayable_traces"]
  (* drawing_parts.rs 51, 90 *)
  else if is (str "DrawPlacementOfEventByName") then get_all config [str "event_name"]
  else if is (str "DrawPlacementOfEventsByRegex") then get_all config [str "regex"]
  (* filtering_parts.rs 23, 33, 63 *)
  else if is (str "FilterEventsByName") then get_all config [str "event_name"]
  else if is (str "FilterEventsByRegex") then get_all config [str "regex"]
  else if is (str "FilterTracesByEventsCount") then get_all config [str "events_count"]
  (* xes_parts.rs 17, 59 *)
  else if is (str "WriteLogToXes") || is (str "WriteLogToBxes") then get_all config [str "path"]
  (* util_parts.rs 101-102 *)
  else if is (str "ExecuteFrontendPipeline") then get_all config [str "pipeline"]
  else Ok tt.

(** * Writing context values, grpc/converters.rs *)

(** [as u32].  grpc/converters.rs 342-349, 359-372. *)
Definition as_u32 (z : Z) : Z := (z mod 2 ^ 32)%Z.
(** [as i64] of a u64 or usize.  grpc/converters.rs 405-458. *)
Definition as_i64 (z : Z) : Z := ((z + 2 ^ 63) mod 2 ^ 64 - 2 ^ 63)%Z.
(** [as i32] of a usize.  grpc/converters.rs 563-575. *)
Definition as_i32 (z : Z) : Z := ((z + 2 ^ 31) mod 2 ^ 32 - 2 ^ 31)%Z.
(** data.to_string() or "", grpc/converters.rs 425-428, 488-491, 502-505. *)
Definition data_string (o : option pystr) : pystr := match o with Some s => s | None => [] end.

(** convert_to_grpc_color, grpc/converters.rs 351-357 (u8 to u32). *)
Definition color_grpc (c : Z * Z * Z) : gcolor := mkGColor (fst (fst c)) (snd (fst c)) (snd c).
(** convert_to_grpc_colored_rect, grpc/converters.rs 342-349. *)
Definition rect_grpc (r : rrect) : grect :=
  mkGRect (color_grpc (rr_color r)) (as_u32 (rr_start r)) (as_u32 (rr_length r)) (rr_name r).
(** convert_to_grpc_arc, grpc/converters.rs 432-438. *)
Definition arc_grpc (a : rarc) : garc := mkGArc (as_i64 (ra_id a)) (as_i64 (ra_place a)) (as_i64 (ra_tokens a)).
(** convert_to_grpc_transition, grpc/converters.rs 405-430. *)
Definition transition_grpc (t : rtransition) : gtransition :=
  mkGTransition (as_i64 (rt_id t)) (map arc_grpc (rt_in t)) (map arc_grpc (rt_out t)) (data_string (rt_data t)).
(** convert_to_grpc_single_marking, grpc/converters.rs 453-458. *)
Definition single_grpc (m : Z * Z) : Z * Z := (as_i64 (fst m), as_i64 (snd m)).
(** try_convert_to_grpc_marking, grpc/converters.rs 440-451. *)
Definition marking_grpc (m : option (list (Z * Z))) : option (list (Z * Z)) := option_map (map single_grpc) m.
(** try_convert_to_grpc_petri_net, grpc/converters.rs 374-396, with convert_to_grpc_place 398-403. *)
Definition net_grpc (n : rnet) : gpetri :=
  mkGPetri (map (fun p => (as_i64 (fst p), snd p)) (rn_places n)) (map transition_grpc (rn_transitions n))
    (marking_grpc (rn_initial n)) (marking_grpc (rn_final n)).
(** convert_to_grpc_graph, grpc/converters.rs 471-507. *)
Definition graph_grpc (g : rgraph) : ggraph :=
  mkGGraph (map (fun n => (fst n, data_string (snd n))) (rg_nodes g))
    (map (fun e => (fst (fst e), snd (fst e), data_string (snd e))) (rg_edges g)).
(** convert_to_grpc_dataset, grpc/converters.rs 545-561. *)
Definition dataset_grpc (d : rdataset) : gdataset :=
  mkGDataset (map (map f32) (rd_values d)) (rd_columns d) (rd_names d).

(** convert_to_grpc_context_value, grpc/converters.rs 142-178: the key decides, the value must have the type of the
    converter.  [None] leaves the value of the message unset.  Left out: the converters of patterns and
    repeat_sets, whose messages no client part asks for. *)
Definition value_grpc (key : pystr) (v : rvalue) : option gvalue :=
  let is s := str_eqb key s in
  if is (str "path") then match v with VString s => Some (GString s) | _ => None end
  else if is (str "hashes_event_log") then match v with VHashes log => Some (GHashesLog log) | _ => None end
  else if is (str "names_event_log") then match v with VNames log => Some (GNamesLog log) | _ => None end
  else if is (str "colors_event_log") then
    match v with VColors log => Some (GColors (map (map rect_grpc) log)) | _ => None end
  else if is (str "event_log_info") then
    match v with VInfo e t c => Some (GInfo (mkGInfo (as_u32 e) (as_u32 t) (as_u32 c))) | _ => None end
  else if is (str "petri_net") then match v with VNet n => Some (GPetriNet (net_grpc n)) | _ => None end
  else if is (str "graph") then match v with VGraph g => Some (GGraph (graph_grpc g)) | _ => None end
  else if is (str "petri_net_count_annotation") then
    match v with VCounts l => Some (GCounts (map (fun a => (as_i64 (fst a), as_i64 (snd a))) l)) | _ => None end
  else if is (str "petri_net_frequency_annotation") || is (str "petri_net_trace_frequency_annotation") then
    match v with VFreqs l => Some (GFreqs (map (fun a => (as_i64 (fst a), f32 (snd a))) l)) | _ => None end
  else if is (str "traces_activities_dataset") || is (str "log_traces_dataset") then
    match v with VDataset d => Some (GDataset (dataset_grpc d)) | _ => None end
  else if is (str "labeled_traces_activities_dataset") || is (str "labeled_log_traces_dataset") then
    match v with
    | VLabeled d labels colors =>
        Some (GLabeled (mkGLabeled (dataset_grpc d) (map as_i32 labels) (map color_grpc colors)))
    | _ => None
    end
  else None.

(** * Execution *)

(** What running a part gives: a context, an error of the pipeline with its message, or a panic.  pipelines/pipelines.rs 103-112; pipelines/errors/pipeline_errors.rs 6-9. *)
Inductive step := Done (ctx : userdata) | Failed (message : pystr) | Panicked.

Section Run.
  (** The executor of a registered part on its configuration and the context: what it sends and how it
      ends (pipelines/pipelines.rs 103-112). *)
  Variable run : pystr -> userdata -> userdata -> list gmessage * step.
  (** MissingContextError's text, pipelines/errors/pipeline_errors.rs. *)
  Variable missing : pystr -> pystr.

  (** The values of the requested keys, grpc/get_context_pipeline.rs 50-66; an unset value is [GUnset]. *)
  Fixpoint collect (keys : list pystr) (ctx : userdata) : list (pystr * gvalue) + pystr :=
    match keys with
    | [] => inl []
    | k :: rest =>
        match dget str_eq_dec ctx k with
        | Some v =>
            match collect rest ctx with
            | inl l => inl ((k, match value_grpc k v with Some g => g | None => GUnset end) :: l)
            | inr k' => inr k'
            end
        | None => inr k
        end
    end.
  (** The first name that is not a key, 90-100.  grpc/get_context_pipeline.rs 90-100. *)
  Definition unknown_key (keys : list pystr) : option pystr :=
    find (fun k => match find_key k with Some _ => false | None => true end) keys.

  (** PipelinePart::execute of both kinds of parts.  pipelines/pipelines.rs 103-112; grpc/get_context_pipeline.rs 36-81, 83-110. *)
  Definition run_part (p : rpart) (ctx : userdata) : list gmessage * step :=
    match p with
    | RDefault name config => run name config ctx
    | RGet keys u before =>
        match unknown_key keys with
        | Some k => ([], Failed (missing k))
        | None =>
            let '(msgs, s) :=
              match before with Some (name, config) => run name config ctx | None => ([], Done ctx) end in
            match s with
            | Done ctx' =>
                match collect keys ctx' with
                | inl values => (msgs ++ [MPart (uuid_str u) values], Done ctx')
                | inr k => (msgs, Failed (missing k))
                end
            | _ => (msgs, s)
            end
        end
    end.
  (** The loop of Pipeline::execute, pipelines/pipelines.rs 32-36. *)
  Fixpoint run_parts (l : list rpart) (ctx : userdata) : list gmessage * step :=
    match l with
    | [] => ([], Done ctx)
    | p :: rest =>
        let '(msgs, s) := run_part p ctx in
        match s with
        | Done ctx' => let '(msgs', s') := run_parts rest ctx' in (msgs ++ msgs', s')
        | _ => (msgs, s)
        end
    end.
  (** Pipeline::execute, pipelines/pipelines.rs 24-38, 41-45: the colours holder is created when missing. *)
  Definition run_pipeline (l : list rpart) (ctx : userdata) : list gmessage * step :=
    run_parts l (if dmem str_eq_dec ctx (str "colors_holder") then ctx
                 else dset str_eq_dec ctx (str "colors_holder") (VOther (str "ColorsHolder"))).

  (** execute_pipeline, grpc/backend_service.rs 133-166, 206-218: the messages of the stream, and the
      context kept for the guid.  A panic ends the task: the channel closes, the stream just ends. *)
  Definition serve (guid : pystr) (rq : grequest) : list gmessage * option userdata :=
    match read_parts read_part (rq_pipeline rq) with
    | Err _ => ([], None)
    | Ok parts =>
        match initial_context (rq_context rq) [] with
        | Err _ => ([], None)
        | Ok ctx =>
            let '(msgs, s) := run_pipeline parts ctx in
            match s with
            | Done ctx' => (msgs ++ [MFinal (FSuccess guid)], Some ctx')
            | Failed e => (msgs ++ [MFinal (FError e)], None)
            | Panicked => (msgs, None)
            end
        end
    end.
End Run.
