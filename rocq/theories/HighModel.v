(** The parts that discover activities: legacy/pipelines/analysis/high_level.py 6-257 and the parts of
    legacy/pipelines/analysis/patterns/patterns_parts.py they are made of.
    Simplifications: a context is the record of the five entries these parts read and write (other
    entries are not touched by them; sharing between contexts is in CtxModel/HMutModel); a part returns
    the context it returns in Python, which for the parts that change their argument in place is also the
    argument afterwards; printing is left out. *)
From Verif Require Import Py XesModel LogModel HashModel PatternModel TreeModel ActModel ActLogModel SplitModel InfoModel.

(** The entries log, activities, traces_activities, repeat_sets and patterns of PipelinePartResult.values,
    part_results.py 34-56. *)
Record context := mkContext {
  c_log : option eventlog;
  c_activities : option (list (anode ndata));
  c_instances : option (list (list inst));
  c_repeat_sets : option (list repeat_set);
  c_patterns : option (list (list sub_array))
}.
(** PipelinePartResult(), part_results.py 35-36. *)
Definition new_context : context := mkContext None None None None None.
(** self.values[log_key] = log.  legacy/pipelines/contexts/part_results.py 38-40. *)
Definition with_log (c : context) l := mkContext (Some l) (c_activities c) (c_instances c) (c_repeat_sets c) (c_patterns c).
(** legacy/pipelines/contexts/part_results.py 42-44. *)
Definition with_activities (c : context) a := mkContext (c_log c) (Some a) (c_instances c) (c_repeat_sets c) (c_patterns c).
(** legacy/pipelines/contexts/part_results.py 50-52. *)
Definition with_trace_activities (c : context) i := mkContext (c_log c) (c_activities c) (Some i) (c_repeat_sets c) (c_patterns c).
(** legacy/pipelines/contexts/part_results.py 46-48. *)
Definition with_repeat_sets (c : context) r := mkContext (c_log c) (c_activities c) (c_instances c) (Some r) (c_patterns c).
(** legacy/pipelines/contexts/part_results.py 54-56. *)
Definition with_patterns (c : context) p := mkContext (c_log c) (c_activities c) (c_instances c) (c_repeat_sets c) (Some p).
(** get_value_or_throw, part_results.py 94-98. *)
Definition entry {A} (o : option A) : result A := match o with Some x => Ok x | None => Err ValueError end.

(** What is global: unique_activity_node_index (patterns_models.py 24) and how many uuids were made. *)
Record globals := mkGlobals { g_index : N; g_uuid : nat }.

(** ActivitiesDiscoveryStrategy, patterns_parts.py 413-415; the code only compares with the merged one. *)
Inductive discovery := FromAllTraces | FromSingleMergedTrace.
(** AdjustingMode, patterns/models.py 9-11. *)
Inductive adjusting := FromUnattachedSubTraces | FromAllLog.

(** sep.join(l).  Used in legacy/analysis/patterns/util.py 105-116. *)
Fixpoint str_join (sep : pystr) (l : list pystr) : pystr :=
  match l with
  | [] => []
  | [x] => x
  | x :: r => x ++ sep ++ str_join sep r
  end.
(** constants.py 1 *)
Definition activity_name_sep : pystr := str "::".

Section High.
  (** str(uuid.uuid4()), the k-th call. *)
  Variable uuids : nat -> pystr.

  (** _do_create_hashes_traces, patterns/util.py 48-60. *)
  Definition hashes_traces (ce : event -> result pystr) (l : eventlog) : result (list (list N)) :=
    mapM (fun t => do_create_hashes ce (t_events t)) (l_traces l).

  (** merge_all_traces_in_one_log and create_unique_event, event_log_split.py 59-75. *)
  Definition merged_log (l : eventlog) (g : globals) : eventlog * globals :=
    (log_of_traces (map trace_of_events
       (merge_all_traces_in_one_log (fun u => [(concept_name, VStr u)]) (map t_events (l_traces l)) (fun i => uuids (g_uuid g + i)))),
     mkGlobals (g_index g) (g_uuid g + length (l_traces l))).

  (** create_activity_name_from_log and _from_trace, patterns/util.py 105-115. *)
  Definition activity_name (ce : event -> result pystr) (l : eventlog) (r : repeat_set) : result pystr :=
    match nth_error (l_traces l) (rs_trace_index r) with
    | None => Err IndexError
    | Some t =>
        bind (mapM ce (slice_of (t_events t) (rs_first_pos r) (rs_first_pos r + rs_length r))) (fun names =>
        Ok (str_join activity_name_sep (sort_strs (nodup str_eq_dec names))))
    end.
  (** ActivityNode.unique_name, patterns_models.py 54-55. *)
  Definition unique_name (index : N) : pystr := str "Activity_" ++ show_int (Z.of_N index).

  (** create_activity_node, event_log_patterns.py 187-193, with ActivityNode.__init__, patterns_models.py 26-43. *)
  Definition activity_node (ce : event -> result pystr) (level : Z) (l : eventlog) (hashes : list (list N)) (index : N) (r : repeat_set)
    : result (raw_node ndata) :=
    bind (extract_set_events hashes r) (fun events =>
    bind (activity_name ce l r) (fun name =>
    Ok (mkRaw (mkND name level (unique_name index) index r) events))).
  (** list(map(create_activity_node, repeat_sets)), event_log_patterns.py 198; the counter grows by one per node. *)
  Fixpoint activity_nodes (ce : event -> result pystr) (level : Z) (l : eventlog) (hashes : list (list N)) (index : N) (rs : list repeat_set)
    : result (list (raw_node ndata)) :=
    match rs with
    | [] => Ok []
    | r :: rest => bind (activity_node ce level l hashes index r) (fun n =>
                   bind (activity_nodes ce level l hashes (index + 1) rest) (fun ns => Ok (n :: ns)))
    end.
  (** build_repeat_set_tree, event_log_patterns.py 164-246. *)
  Definition activities_tree (ce : event -> result pystr) (level : Z) (l : eventlog) (rs : list repeat_set) (g : globals)
    : result (list (anode ndata) * globals) :=
    bind (hashes_traces ce l) (fun hashes =>
    bind (activity_nodes ce level l hashes (g_index g) rs) (fun nodes =>
    Ok (build_repeat_set_tree nodes, mkGlobals (g_index g + N.of_nat (length rs)) (g_uuid g)))).

  (** DiscoverRepeats.execute and DiscoverTandemArrays.execute, patterns_parts.py 138-146 and 26-36; [source] is the function
      chosen from the table, on hashed traces. *)
  Definition discover_patterns (source : list (list N) -> list (list sub_array)) (ce : event -> result pystr) (c : context) : result context :=
    bind (entry (c_log c)) (fun l => bind (hashes_traces ce l) (fun hashes => Ok (with_patterns c (source hashes)))).
  (** DiscoverRepeatsSets.execute, patterns_parts.py 54-59, with create_repeat_sets, event_log_patterns.py 138-142. *)
  Definition discover_repeat_sets (ce : event -> result pystr) (c : context) : result context :=
    bind (entry (c_log c)) (fun l => bind (entry (c_patterns c)) (fun p => bind (hashes_traces ce l) (fun hashes =>
    Ok (with_repeat_sets c (create_repeat_sets hashes p))))).
  (** DiscoverActivities.execute, patterns_parts.py 80-92. *)
  Definition discover_activities (ce : event -> result pystr) (level : Z) (c : context) (g : globals) : result (context * globals) :=
    bind (entry (c_log c)) (fun l => bind (entry (c_repeat_sets c)) (fun rs =>
    bind (activities_tree ce level l rs g) (fun r => Ok (with_activities c (fst r), snd r)))).
  (** DiscoverActivitiesFromPatterns.execute, patterns_parts.py 431-450: the transformer, the inner pipeline, the merger. *)
  Definition discover_from_patterns (source : list (list N) -> list (list sub_array)) (strategy : discovery) (ce : event -> result pystr)
    (level : Z) (c : context) (g : globals) : result (context * globals) :=
    bind (match strategy with
          | FromSingleMergedTrace => bind (entry (c_log c)) (fun l => let m := merged_log l g in Ok (with_log c (fst m), snd m))
          | FromAllTraces => Ok (c, g)
          end) (fun temp =>
    bind (discover_patterns source ce (fst temp)) (fun t1 =>
    bind (discover_repeat_sets ce t1) (fun t2 =>
    bind (discover_activities ce level t2 (snd temp)) (fun t3 =>
    bind (entry (c_activities (fst t3))) (fun acts =>
    bind (entry (c_patterns (fst t3))) (fun pats =>
    Ok (with_patterns (with_activities c acts) pats, snd t3))))))).
  (** DiscoverActivitiesInTraces.execute, patterns_parts.py 104-112, with extract_activities_from_log,
      event_log_patterns.py 298-304. *)
  Definition discover_in_traces (ce : event -> result pystr) (accept : inst -> bool) (should_narrow : bool) (c : context) : result context :=
    bind (entry (c_log c)) (fun l => bind (entry (c_activities c)) (fun acts =>
    bind (hashes_traces ce l) (fun hashes =>
    bind (ended (extract_log nd_name acts should_narrow accept hashes)) (fun found => Ok (with_trace_activities c found))))).

  (** DiscoverActivitiesInstancesFromRepeats.execute, high_level.py 83-95, and
      DiscoverActivitiesFromTandemArrays.execute, 48-60: should_narrow_activity is stored (73-79) but not
      handed to DiscoverActivitiesInTraces, whose default is True. *)
  Definition instances_from_patterns (source : list (list N) -> list (list sub_array)) (strategy : discovery) (ce : event -> result pystr)
    (level : Z) (accept : inst -> bool) (should_narrow : bool) (c : context) (g : globals) : result (context * globals) :=
    bind (discover_from_patterns source strategy ce level c g) (fun r =>
    bind (discover_in_traces ce accept true (fst r)) (fun c' => Ok (c', snd r))).

  (** CreateLogFromActivities.execute, patterns_parts.py 122-128. *)
  Definition create_log (st : strategy) (use_hashes : bool) (c : context) : result context :=
    bind (entry (c_log c)) (fun l => bind (entry (c_instances c)) (fun acts =>
    bind (create_new_log_from_activities l acts use_hashes st) (fun l' => Ok (with_log c l')))).
  (** ClearActivities.execute, patterns_parts.py 405-410. *)
  Definition clear_activities (c : context) : result context :=
    bind (entry (c_log c)) (fun l =>
    Ok (mkContext (Some l) (Some []) (Some (map (fun _ => []) (l_traces l))) (Some []) (Some (map (fun _ => []) (l_traces l))))).

  (** calculate_events_count(log(context)), event_log_info.py 121-122. *)
  Definition context_events (c : context) : result nat :=
    bind (entry (c_log c)) (fun l => Ok (calculate_events_count (map t_events (l_traces l)))).

  (** AdjustWithActivitiesFromUnattachedEvents.execute, high_level.py 115-151; [source] is find_maximal_repeats. *)
  Definition adjust (source : list (list N) -> list (list sub_array)) (ce : event -> result pystr) (level : Z) (strategy : discovery)
    (min_events : nat) (mode : adjusting) (accept : inst -> bool) (should_narrow : bool) (c0 : context) (g : globals) : result (context * globals) :=
    bind (match c_instances c0 with
          | Some _ => Ok c0
          | None => bind (entry (c_log c0)) (fun l => Ok (with_trace_activities c0 (map (fun _ => []) (l_traces l))))
          end) (fun c =>
    bind (entry (c_log c)) (fun l =>
    bind (entry (c_instances c)) (fun instances =>
    let temp := with_log new_context
                  match mode with FromUnattachedSubTraces => create_unattached_events_log l instances | FromAllLog => l end in
    bind (discover_from_patterns source strategy ce level temp g) (fun out =>
    bind (entry (c_activities (fst out))) (fun new =>
    let c1 := with_activities c (match c_activities c with Some old => old | None => [] end ++ new) in
    bind (entry (c_activities c1)) (fun acts =>
    bind (add_unattached_activities acts ce accept min_events should_narrow l instances) (fun found =>
    Ok (with_trace_activities c1 found, snd out)))))))).

  (** DiscoverActivitiesForSeveralLevels.execute, high_level.py 171-183. *)
  Fixpoint several_levels (source : list (list N) -> list (list sub_array)) (strategy : discovery) (min_events : nat) (mode : adjusting)
    (accept : inst -> bool) (should_narrow : bool) (extractors : list (event -> result pystr)) (level : Z) (c : context) (g : globals)
    : result (context * globals) :=
    match extractors with
    | [] => Ok (c, g)
    | ce :: rest =>
        bind (adjust source ce level strategy min_events mode accept should_narrow c g) (fun r =>
        several_levels source strategy min_events mode accept should_narrow rest (level + 1) (fst r) (snd r))
    end.

  (** DiscoverActivitiesInstancesFromRepeatsUntilNoMore, high_level.py 197-257. *)
  Section Until.
    Variable source : list (list N) -> list (list sub_array).   (* find_maximal_repeats *)
    Variables (ce : event -> result pystr) (strategy : discovery) (accept : inst -> bool) (should_narrow use_hashes increase : bool).
    (** The context as before_log_creation_pipeline and after_log_creation_pipeline leave it; what they
        return is dropped. *)
    Variables (before after : option (context -> globals -> result (context * globals))).
    (** if self.x is not None: self.x(current_input), legacy/pipelines/analysis/high_level.py 239-240 and 246-247. *)
    Definition hook (h : option (context -> globals -> result (context * globals))) (c : context) (g : globals) : result (context * globals) :=
      match h with Some f => f c g | None => Ok (c, g) end.
    (** The while loop, legacy/pipelines/analysis/high_level.py 224-257; [Err Diverges] = out of fuel. *)
    Fixpoint until_loop (fuel : nat) (log_size : nat) (level : Z) (c : context) (g : globals) : result (context * globals) :=
      match fuel with
      | O => Err Diverges
      | S fuel' =>
          bind (clear_activities c) (fun prev_input =>
          bind (instances_from_patterns source strategy ce level accept should_narrow prev_input g) (fun r =>
          bind (entry (c_instances (fst r))) (fun instances =>
          if list_sum (map (@length _) instances) =? 0 then Ok (prev_input, snd r)
          else
            bind (hook before (fst r) (snd r)) (fun r1 =>
            bind (create_log InsertAllEvents use_hashes (fst r1)) (fun c2 =>
            bind (hook after c2 (snd r1)) (fun r3 =>
            bind (context_events (fst r3)) (fun new_log_size =>
            if new_log_size =? log_size then Ok r3
            else until_loop fuel' new_log_size (if increase then level + 1 else level)%Z (fst r3) (snd r3))))))))
      end.
    (** execute, legacy/pipelines/analysis/high_level.py 220-257. *)
    Definition until_no_more (fuel : nat) (level : Z) (c : context) (g : globals) : result (context * globals) :=
      bind (context_events c) (fun log_size => until_loop fuel log_size level c g).
  End Until.
End High.
