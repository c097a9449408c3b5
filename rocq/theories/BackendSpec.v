(** Vocabulary for C44, C51 and C52, independent of how client and backend convert: what each part of the
    client is meant to be at the backend, written with the backend's own names. *)
From Coq Require Import SpecFloat.
From Verif Require Import Py WireModel ClientModel ClientSpec BackendModel FloatFacts.

(** * What can be sent *)

(** A str that UTF-8 can hold. *)
Definition utf8 (s : pystr) : Prop := forall c, In c s -> ~ (55296 <= c <= 57343)%N.
(** A number of 32 (64) bits without sign. *)
Definition u32 (z : Z) : Prop := (0 <= z < 2 ^ 32)%Z.
Definition u64 (z : Z) : Prop := (0 <= z < 2 ^ 64)%Z.
(** An optional str. *)
Definition utf8_opt (o : option pystr) : Prop := match o with Some s => utf8 s | None => True end.

(** The numbers fit and the strings can be encoded. *)
Definition leaf_ok (l : leaf) : Prop :=
  match l with
  | LDiscoverActivities n | LFilterCount n => u32 n
  | LDiscoverInstances _ n _ => u32 n
  | LSeveralLevels classes _ _ level _ max_length _ n m _ =>
      (forall s, In s classes -> utf8 s) /\ u32 level /\ u32 max_length /\ u32 n /\ u32 m
  | LFromPatterns kind _ max_length level =>
      u32 level /\ match kind with PrimitiveTandemArrays | MaximalTandemArrays => u32 max_length | _ => True end
  | LApplyClassExtractor a b => utf8 a /\ utf8 b
  | LKMeans c a b => u32 (cm_level c) /\ utf8_opt (cm_class c) /\ u32 a /\ u32 b
  | LKMeansGrid c a | LDbscan c a => u32 (cm_level c) /\ utf8_opt (cm_class c) /\ u32 a
  | LVisualize n class _ => u32 n /\ utf8_opt class
  | LHeuristic _ n _ _ _ => u32 n
  | LSerializePnml s _ | LPlacementsByName _ s | LPlacementsByRegex _ s | LFilterName s | LFilterRegex s
  | LWriteXes s | LWriteBxes s => utf8 s
  | LTandem _ n class => u32 n /\ utf8_opt class
  | LRepeats _ _ class => utf8_opt class
  | LAbstract _ => False
  | _ => True
  end.
Definition part_ok (p : part) : Prop :=
  match p with
  | PLeaf _ l => leaf_ok l
  | PUntil _ c _ => u32 (un_level c) /\ u32 (un_min_unattached c) /\ u32 (un_min_events c) /\ utf8_opt (un_class c)
  | PEachLog _ _ level _ => u32 level
  | PLogDbscan _ c _ => u32 (ld_min_events c) /\ utf8_opt (ld_class c)
  | PBeforeAfter _ _ | PNotAPart => False
  end.

(** * What the backend is to understand *)

(** The backend's variant for each member of the client's enums. *)
Definition r_strategy (x : e_strategy) : rvalue :=
  VEnum (str "PatternsDiscoveryStrategy")
    match x with FromAllTraces => str "FromAllTraces" | FromSingleMergedTrace => str "FromSingleMergedTrace" end.
Definition r_kind (x : e_kind) : rvalue :=
  VEnum (str "PatternsKindDto")
    match x with
    | PrimitiveTandemArrays => str "PrimitiveTandemArrays" | MaximalTandemArrays => str "MaximalTandemArrays"
    | MaximalRepeats => str "MaximalRepeats" | SuperMaximalRepeats => str "SuperMaximalRepeats"
    | NearSuperMaximalRepeats => str "NearSuperMaximalRepeats"
    end.
Definition r_narrow (x : e_narrow) : rvalue :=
  VEnum (str "ActivityNarrowingKind")
    match x with
    | DontNarrow => str "DontNarrow" | StayTheSame => str "StayTheSame" | NarrowUp => str "NarrowUp"
    | NarrowDown => str "NarrowDown"
    end.
Definition r_filter (x : e_filter) : rvalue :=
  VEnum (str "ActivityInTraceFilterKind")
    match x with NoFilter => str "NoFilter" | DefaultFilter => str "DefaultFilter" end.
Definition r_source (x : e_source) : rvalue :=
  VEnum (str "ActivitiesLogsSourceDto")
    match x with SourceLog => str "Log" | SourceTracesActivities => str "TracesActivities" end.
Definition r_repr (x : e_repr) : rvalue :=
  VEnum (str "ActivityRepresentationSource")
    match x with
    | EventClasses => str "EventClasses" | SubTraces => str "SubTraces"
    | SubTracesUnderlyingEvents => str "SubTracesUnderlyingEvents"
    end.
Definition r_distance (x : e_distance) : rvalue :=
  VEnum (str "FicusDistance")
    match x with Cosine => str "Cosine" | L1 => str "L1" | L2 => str "L2" | Levenshtein => str "Levenshtein" end.
Definition r_traces_repr (x : e_traces_repr) : rvalue :=
  VEnum (str "TracesRepresentationSource")
    match x with
    | TracesEvents => str "Events" | TracesUnderlying => str "UnderlyingEvents"
    | TracesDeepest => str "DeepestUnderlyingEvents"
    end.
Definition r_adjusting (x : e_adjusting) : rvalue :=
  VEnum (str "AdjustingMode")
    match x with FromUnattachedSubTraces => str "FromUnattachedSubTraces" | FromAllLog => str "FromAllLog" end.
Definition r_undef (x : e_undef) : rvalue :=
  VEnum (str "UndefActivityHandlingStrategyDto")
    match x with
    | DontInsert => str "DontInsert" | InsertAsSingleEvent => str "InsertAsSingleEvent"
    | InsertAllEvents => str "InsertAllEvents"
    end.
(** A float: the f64 of the nearest f32. *)
Definition r_float (x : pyfloat) : rvalue := VF64 (as_f64 (f32 x)).
(** A key that is there only when it was given. *)
Definition r_class (o : option pystr) : list (pystr * rvalue) :=
  match o with Some s => [(str "event_class_regex", VString s)] | None => [] end.

(** A part of the tandem arrays and of the repeats search. *)
Definition r_tandem (maximal : bool) (n : Z) (class : option pystr) : rpart :=
  RDefault (if maximal then str "FindMaximalTandemArrays" else str "FindPrimitiveTandemArrays")
    ((str "tandem_array_length", VU32 n) :: r_class class).
Definition r_repeats (k : repeats_kind) (s : e_strategy) (class : option pystr) : rpart :=
  RDefault match k with
           | RMaximal => str "FindMaximalRepeats" | RSuper => str "FindSuperMaximalRepeats"
           | RNear => str "FindNearSuperMaximalRepeats"
           end
    ((str "patterns_discovery_strategy", r_strategy s) :: r_class class).
Definition r_common (c : common) : list (pystr * rvalue) :=
  [(str "activity_level", VU32 (cm_level c)); (str "tolerance", r_float (cm_tolerance c));
   (str "activities_repr_source", r_repr (cm_repr c)); (str "distance", r_distance (cm_distance c))]
  ++ r_class (cm_class c).

Definition wanted_leaf (u : uuid) (l : leaf) : rpart :=
  match l with
  | LDiscoverActivities n => RDefault (str "DiscoverActivities") [(str "activity_level", VU32 n)]
  | LDiscoverInstances narrow n f =>
      RDefault (str "DiscoverActivitiesInstances")
        [(str "narrow_activities", r_narrow narrow); (str "min_activity_length", VU32 n);
         (str "activity_in_trace_filter_kind", r_filter f)]
  | LCreateLog s =>
      RDefault (str "CreateLogFromActivities") [(str "undef_activity_handling_strategy", r_undef s)]
  | LSeveralLevels classes kind narrow level s max_length adj n m f =>
      RDefault (str "DiscoverActivitiesForSeveralLevels")
        [(str "narrow_activities", r_narrow narrow); (str "event_classes_regexes", VStrings classes);
         (str "adjusting_mode", r_adjusting adj); (str "activity_level", VU32 level);
         (str "events_count", VU32 n); (str "patterns_kind", r_kind kind);
         (str "patterns_discovery_strategy", r_strategy s); (str "min_activity_length", VU32 m);
         (str "activity_in_trace_filter_kind", r_filter f); (str "tandem_array_length", VU32 max_length)]
  | LFromPatterns kind s n level =>
      RDefault (str "ExecuteFrontendPipeline")
        [(str "pipeline",
          VPipeline
            [match kind with
             | MaximalRepeats => r_repeats RMaximal s None
             | SuperMaximalRepeats => r_repeats RSuper s None
             | NearSuperMaximalRepeats => r_repeats RNear s None
             | PrimitiveTandemArrays => r_tandem false n None
             | MaximalTandemArrays => r_tandem true n None
             end;
             RDefault (str "DiscoverActivities") [(str "activity_level", VU32 level)]])]
  | LSubstituteUnderlying => RDefault (str "SubstituteUnderlyingEvents") []
  | LClearActivities => RDefault (str "ClearActivities") []
  | LPrintUnderlyingCount => RGet [str "underlying_events_count"] u (Some (str "GetUnderlyingEventsCount", []))
  | LApplyClassExtractor a b =>
      RDefault (str "ApplyClassExtractor") [(str "event_class_regex", VString a); (str "regex", VString b)]
  | LKMeans c n m =>
      RGet [str "labeled_traces_activities_dataset"] u
        (Some (str "ClusterizeActivitiesFromTracesKMeans",
               r_common c ++ [(str "clusters_count", VU32 n); (str "learning_iterations_count", VU32 m)]))
  | LKMeansGrid c n =>
      RGet [str "labeled_traces_activities_dataset"] u
        (Some (str "ClusterizeActivitiesFromTracesKMeansGridSearch",
               r_common c ++ [(str "learning_iterations_count", VU32 n)]))
  | LDbscan c n =>
      RGet [str "labeled_traces_activities_dataset"] u
        (Some (str "ClusterizeActivitiesFromTracesDbscan",
               r_common c ++ [(str "min_events_in_cluster_count", VU32 n)]))
  | LVisualize n class r =>
      RGet [str "traces_activities_dataset"] u
        (Some (str "CreateTracesActivitiesDataset",
               (str "activity_level", VU32 n) :: r_class class ++ [(str "activities_repr_source", r_repr r)]))
  | LAlpha => RDefault (str "DiscoverPetriNetAlpha") []
  | LAlphaPlus => RDefault (str "DiscoverPetriNetAlphaPlus") []
  | LAlphaPlusPlus => RDefault (str "DiscoverPetriNetAlphaPlusPlus") []
  | LAlphaPlusPlusNfc => RDefault (str "DiscoverPetriNetAlphaPlusPlusNfc") []
  | LHeuristic a n b c d =>
      RDefault (str "DiscoverPetriNetHeuristic")
        [(str "dependency_threshold", r_float a); (str "positive_observations_threshold", VU32 n);
         (str "relative_to_best_threshold", r_float b); (str "and_threshold", r_float c);
         (str "loop_length_two_threshold", r_float d)]
  | LFuzzy unary binary preserve ratio utility edge node =>
      RDefault (str "DiscoverFuzzyGraph")
        [(str "unary_frequency_threshold", r_float unary);
         (str "binary_frequency_significance_threshold", r_float binary);
         (str "preserve_threshold", r_float preserve); (str "ratio_threshold", r_float ratio);
         (str "utility_rate", r_float utility); (str "edge_cutoff_threshold", r_float edge);
         (str "node_cutoff_threshold", r_float node)]
  | LSerializePnml s b =>
      RDefault (str "SerializePetriNet") [(str "path", VString s); (str "pnml_use_names_as_ids", VBool b)]
  | LViewPetriNet => RGet [str "petri_net"] u None
  | LViewDfg => RGet [str "graph"] u (Some (str "DiscoverDirectlyFollowsGraph", []))
  | LViewGraph => RGet [str "graph"] u None
  | LAnnotate k b =>
      RGet [str "petri_net"; match k with
                             | ACount => str "petri_net_count_annotation"
                             | AFrequency => str "petri_net_frequency_annotation"
                             | ATraceFrequency => str "petri_net_trace_frequency_annotation"
                             end] u
        (Some (match k with
               | ACount => str "AnnotatePetriNetWithCount"
               | AFrequency => str "AnnotatePetriNetWithFrequency"
               | ATraceFrequency => str "AnnotatePetriNetWithTraceFrequency"
               end, [(str "terminate_on_unreplayable_traces", VBool b)]))
  | LEnsureMarking => RDefault (str "EnsureInitialMarking") []
  | LDiversity _ => RGet [str "colors_event_log"] u (Some (str "TracesDiversityDiagram", []))
  | LPlacementsByName _ s =>
      RGet [str "colors_event_log"] u (Some (str "DrawPlacementOfEventByName", [(str "event_name", VString s)]))
  | LPlacementsByRegex _ s =>
      RGet [str "colors_event_log"] u (Some (str "DrawPlacementOfEventsByRegex", [(str "regex", VString s)]))
  | LFullDiagram _ => RGet [str "colors_event_log"] u (Some (str "DrawFullActivitiesDiagram", []))
  | LShortDiagram _ => RGet [str "colors_event_log"] u (Some (str "DrawShortActivitiesDiagram", []))
  | LFilterCount n => RDefault (str "FilterTracesByEventsCount") [(str "events_count", VU32 n)]
  | LFilterName s => RDefault (str "FilterEventsByName") [(str "event_name", VString s)]
  | LFilterRegex s => RDefault (str "FilterEventsByRegex") [(str "regex", VString s)]
  | LFilterVariants => RDefault (str "FilterLogByVariants") []
  | LAddStartEnd => RDefault (str "AddArtificialStartEndEvents") []
  | LAddStart => RDefault (str "AddArtificialStartEvents") []
  | LAddEnd => RDefault (str "AddArtificialEndEvents") []
  | LTandem maximal n class => r_tandem maximal n class
  | LRepeats k s class => r_repeats k s class
  | LUseNames => RDefault (str "UseNamesEventLog") []
  | LPrintLog => RGet [str "names_event_log"] u (Some (str "GetNamesEventLog", []))
  | LReadXes => RDefault (str "ReadLogFromXes") []
  | LWriteXes s => RDefault (str "WriteLogToXes") [(str "path", VString s)]
  | LReadBxes => RDefault (str "ReadLogFromBxes") []
  | LWriteBxes s => RDefault (str "WriteLogToBxes") [(str "path", VString s)]
  | LPrintInfo => RGet [str "event_log_info"] u (Some (str "GetEventLogInfo", []))
  | LAbstract _ => RDefault [] []
  end.

Fixpoint wanted (p : part) : rpart :=
  match p with
  | PLeaf u l => wanted_leaf u l
  | PUntil u c after =>
      RDefault (str "DiscoverActivitiesUntilNoMore")
        ([(str "narrow_activities", r_narrow (un_narrow c)); (str "adjusting_mode", r_adjusting (un_adjusting c));
          (str "activity_level", VU32 (un_level c)); (str "events_count", VU32 (un_min_unattached c));
          (str "patterns_kind", r_kind (un_kind c)); (str "patterns_discovery_strategy", r_strategy (un_strategy c));
          (str "min_activity_length", VU32 (un_min_events c));
          (str "undef_activity_handling_strategy", r_undef (un_undef c));
          (str "activity_in_trace_filter_kind", r_filter (un_filter c));
          (str "execute_only_on_last_extraction", VBool (un_only_last c))]
         ++ r_class (un_class c)
         ++ match after with Some l => [(str "pipeline", VPipeline (map wanted l))] | None => [] end)
  | PEachLog u s level inner =>
      RDefault (str "ExecuteWithEachActivityLog")
        [(str "pipeline", VPipeline (map wanted inner)); (str "activity_level", VU32 level);
         (str "activities_logs_source", r_source s)]
  | PLogDbscan u c inner =>
      RGet [str "labeled_log_traces_dataset"] u
        (Some (str "ClusterizeLogTraces",
          [(str "tolerance", r_float (ld_tolerance c)); (str "distance", r_distance (ld_distance c));
           (str "traces_repr_source", r_traces_repr (ld_repr c));
           (str "min_events_in_cluster_count", VU32 (ld_min_events c));
           (str "pipeline", VPipeline (map wanted inner))] ++ r_class (ld_class c)))
  | PBeforeAfter _ _ | PNotAPart => RDefault [] []
  end.

(** * Running a part without a complaint about its configuration *)

(** A configuration a part is given. *)
Definition config_of (r : rpart) : option (pystr * list (pystr * rvalue)) :=
  match r with RDefault name c => Some (name, c) | RGet _ _ before => before end.
(** [r] is a part of the pipeline [l], or of a pipeline in a configuration of one, at any depth. *)
Inductive rinside (r : rpart) : list rpart -> Prop :=
| rinside_here l : In r l -> rinside r l
| rinside_deep q l name c k inner :
    In q l -> config_of q = Some (name, c) -> In (k, VPipeline inner) c -> rinside r inner -> rinside r l.
(** Every value has the type of its key, every key asked for exists, and the part finds all it reads. *)
Definition configured (r : rpart) : Prop :=
  (forall keys u before, r = RGet keys u before -> forall k, In k keys -> In k (map fst backend_keys)) /\
  (forall name c, config_of r = Some (name, c) ->
     In name backend_parts /\
     (forall k v, In (k, v) c -> In (k, value_type v) backend_keys) /\
     part_config name c = Ok tt).

(** The kinds of patterns that need the length of tandem arrays. *)
Definition tandem_kind (k : e_kind) : Prop := k = PrimitiveTandemArrays \/ k = MaximalTandemArrays.
(** A part that searches tandem arrays through the backend's find_patterns. *)
Definition hungry (p : part) : Prop :=
  match p with
  | PUntil _ c _ => tandem_kind (un_kind c)
  | PLeaf _ (LSeveralLevels classes kind _ _ _ _ _ _ _ _) => tandem_kind kind /\ classes <> []
  | _ => False
  end.

(** * Values of the initial context *)

(** The value the backend is to hold; None when the class of value cannot be used in a context. *)
Definition carried (v : ctxval) : option rvalue :=
  match v with
  | CString s => Some (VString s)
  | CFloat x => Some (VF64 (as_f64 (f32 x)))
  | CUint32 z => Some (VU32 z)
  | CBool b => Some (VBool b)
  | CNamesLog log => Some (VNames log)
  | CEnum ty v =>
      if existsb (fun e => str_eqb (fst e) ty && existsb (str_eqb v) (snd e)) backend_enums
      then Some (VEnum ty v) else None
  | CStrings l => Some (VStrings l)
  | CPipeline parts => Some (VPipeline (map wanted parts))
  | _ => None
  end.
(** Values that can be sent. *)
Definition value_ok (v : ctxval) : Prop :=
  match v with
  | CPlain _ | CInfo _ _ _ => False
  | CBase | CFloat _ | CBool _ => True
  | CString s => utf8 s
  | CUint32 z => u32 z
  | CHashesLog log => forall t z, In t log -> In z t -> u64 z
  | CNamesLog log => forall t s, In t log -> In s t -> utf8 s
  | CEnum ty v => utf8 ty /\ utf8 v
  | CStrings l => forall s, In s l -> utf8 s
  | CPipeline parts => forall p, inside p parts -> part_ok p
  end.

(** A number that a binary32 (binary64) float can hold. *)
Definition in_binary32 (x : pyfloat) : Prop := exists y, valid_binary 24 128 y = true /\ same_number x y.
Definition binary64 (x : pyfloat) : Prop := valid_binary 53 1024 x = true.
