{"id": "C01", "title": "Removing an event name removes exactly that name", "statement": "remove_event_from_log(log, n) returns a log in which no event is named n, every trace is the original trace with exactly the events named n deleted (all other events kept, same order, same multiplicity), traces that become (or were) empty are gone and the order of the surviving traces is the original order; the input log is not modified.", "quantifier": "every log (any number and length of traces) and every event name, whether or not it occurs", "why_tests_cant": "The claim ranges over all logs and names; a test fixes a handful of logs.", "anchors": ["src/python/ficus/legacy/mutations/event_log_mutations.py: remove_event_from_log, _filter_events, _filter_traces"]}
{"id": "C02", "title": "Removal algebra", "statement": "remove_events_from_log(log, names) equals removing the names one after another in any order; removal is idempotent, two removals commute, filter_log(log, p) keeps exactly the events that do not satisfy p, and filtering by p and then by q equals filtering by \"p or q\".", "quantifier": "every log, every set/list of names, every pair of predicates", "why_tests_cant": "Algebraic laws over arbitrary predicates and lists of names.", "anchors": ["src/python/ficus/legacy/mutations/event_log_mutations.py: remove_events_from_log, filter_log, _filter_events"]}
{"id": "C03", "title": "Trace length filter is exact", "statement": "remove_empty_traces / FilterTracesByCount(min) keeps precisely the traces with strictly more than min events, unchanged and in order; preprocessing names changes names only (trace count, lengths and all other attributes are kept).", "quantifier": "every log, threshold and renaming function", "why_tests_cant": "Ranges over all thresholds, logs and renaming functions.", "anchors": ["src/python/ficus/legacy/mutations/event_log_mutations.py: remove_empty_traces, preprocess_event_names_inplace, remove_lifecycle_attribute", "src/python/ficus/legacy/pipelines/filtering/filter_parts.py: FilterTracesByCount"]}
{"id": "C04", "title": "Text log format round trip", "statement": "Parsing the text produced by serialize_log gives back exactly the sequence of event names of every trace for one-character separators provided no name contains either separator and no trace is empty; with longer separators the same holds when the first occurrence of the separator in every joined text is the one put there (a separator may otherwise arise across a boundary); an empty trace does not survive (it comes back as a trace holding one event with an empty name).", "quantifier": "every log of names and every separator satisfying the stated conditions", "why_tests_cant": "Round trip over all strings; separators inside names and empty traces are the corner cases a test suite samples at best.", "anchors": ["src/python/ficus/legacy/log/functions.py: parse_log_from_strings, parse_log_from_string, parse_trace_from_string, serialize_log"]}
{"id": "C05", "title": "XES round trip of traces, events and typed attributes", "statement": "Reading back the XES document produced for a log gives the same traces in the same order, each with the same events and the same attributes, for string, integer, float and date attributes (dates/floats: given that their own textual forms round trip), provided the log has no log-level properties and no attribute equals its declared global default.", "quantifier": "every log whose attribute values are of the serialisable kinds, any size", "why_tests_cant": "Unbounded documents, arbitrary keys and values.", "anchors": ["src/python/ficus/legacy/log/functions.py: read_log_from_xes, serialize_log_to_xes, parse_functions, types_to_names"]}
{"id": "C06", "title": "XES round trip failures are exactly known", "statement": "A boolean attribute False is read back as True; a log carrying a log-level property cannot be read back at all (KeyError); global defaults written with their type come back as strings; attributes of other types, and attributes equal to the declared global default, are silently not written.", "quantifier": "every log with such a value", "why_tests_cant": "Shows for every such log what is lost; example tests hit none of these.", "anchors": ["src/python/ficus/legacy/log/functions.py: serialize_log_to_xes, read_log_from_xes, _should_serialize_value, _check_if_default_value"]}
{"id": "C07", "title": "Equality and hash depend only on content", "statement": "Two events with the same key/value pairs inserted in any order are equal and have equal hashes, hence so do traces and logs made of them; hash values lie in [0, 10^9+7) and == is an equivalence relation. The converse fails: there are different events, traces and logs that compare equal.", "quantifier": "every payload, every insertion order, every log", "why_tests_cant": "Insertion orders and collisions cannot be enumerated.", "anchors": ["src/python/ficus/legacy/log/event_log.py: MyEvent.__hash__, MyEvent.__eq__, MyEventsSequence.__hash__, MyEventLog.__hash__", "src/python/ficus/legacy/util.py: calculate_dict_hash, calculate_poly_hash_for_collection, calculate_string_poly_hash"]}
{"id": "C08", "title": "Copy and deepcopy isolation", "statement": "After copy.deepcopy of a log, no sequence of writes to events/traces/log reached through the copy changes anything observable through the original (and vice versa); after copy.copy the trace lists are independent but traces/events are shared. A deep copy has the same events; trace attributes and global values are NOT carried over although the copy still compares equal.", "quantifier": "every object graph and every later write sequence", "why_tests_cant": "Aliasing properties quantify over all heaps and all later mutations.", "anchors": ["src/python/ficus/legacy/log/event_log.py: MyEvent.__copy__, MyEvent.__deepcopy__, MyTrace.__copy__, MyTrace.__deepcopy__, MyEventLog.__copy__, MyEventLog.__deepcopy__"]}
{"id": "C09", "title": "Splitting a log into groups loses and duplicates nothing", "statement": "split_log_by_traces returns non-empty groups whose concatenation is a permutation of the traces of the log (every trace occurrence is in exactly one group), all traces of one group have the same length, and inside a group the original order is kept.", "quantifier": "every log", "why_tests_cant": "Partition property over all logs; the loop refines groups index by index with early exits.", "anchors": ["src/python/ficus/legacy/analysis/event_log_split.py: split_log_by_traces"]}
{"id": "C10", "title": "Groups are exactly the trace variants (when name hashes do not collide)", "statement": "Two traces are put in one group iff they have the same sequence of name hashes; hence iff they have the same sequence of names as long as the names occurring in the log have pairwise different hashes. Without that condition it is false: the names \"aB\" and \"BC\" collide.", "quantifier": "every log and every pair of its traces", "why_tests_cant": "Needs all pairs of traces of all logs, and the collision condition.", "anchors": ["src/python/ficus/legacy/analysis/event_log_split.py: split_log_by_traces", "src/python/ficus/legacy/util.py: calculate_string_poly_hash"]}
{"id": "C11", "title": "Variant filter keeps one representative of each variant", "statement": "FilterTracesByVariants yields a log in which every trace is a trace of the input, every variant of the input is represented, and no two traces have the same variant (given collision free names). With colliding names a variant is lost.", "quantifier": "every log", "why_tests_cant": "Universally quantified over logs; collision case cannot be found by sampling.", "anchors": ["src/python/ficus/legacy/pipelines/filtering/filter_parts.py: FilterTracesByVariants"]}
{"id": "C12", "title": "Directly-follows counts are exact", "statement": "In create_log_information(log), the count stored for a pair (a, b) is exactly the number of positions in all traces where a is immediately followed by b after the ignored events are dropped; with fake start/end enabled each non-empty filtered trace contributes one (FAKE_START, first) and one (last, FAKE_END). No pair is stored with count 0.", "quantifier": "every log, every set of ignored events, every pair of names", "why_tests_cant": "Counting property over all logs and all ignored sets.", "anchors": ["src/python/ficus/legacy/analysis/event_log_info.py: create_log_information, create_dfg, DirectlyFollowsGraph"]}
{"id": "C13", "title": "Flow conservation in the directly-follows relation", "statement": "With fake start and end enabled, for each event name the counts of pairs starting with it sum to its event count and the counts of pairs ending with it sum to its event count; the FAKE_START outgoing total equals the FAKE_END incoming total equals the number of traces not emptied by ignoring.", "quantifier": "every log (whose own names are not the fake names), every ignored set, every name", "why_tests_cant": "Global sums over arbitrary logs.", "anchors": ["src/python/ficus/legacy/analysis/event_log_info.py: create_log_information"]}
{"id": "C14", "title": "Event counts and follower sets", "statement": "events_count[n] is the exact number of non-ignored events named n, the keys are exactly the names present, and the followers reported for n are exactly the names b with a positive pair count; the single-follower set consists of exactly those names having one distinct follower.", "quantifier": "every log and ignored set", "why_tests_cant": "Counting over all logs.", "anchors": ["src/python/ficus/legacy/analysis/event_log_info.py: create_log_information, DirectlyFollowsGraph.get_followed_events, calculate_events_count"]}
{"id": "C15", "title": "find_all_events_names is universal quantification per name", "statement": "A name is returned iff it occurs in the log and every event of the log with that name satisfies the predicate.", "quantifier": "every log and predicate", "why_tests_cant": "Order in which violating and satisfying events appear is arbitrary.", "anchors": ["src/python/ficus/legacy/analysis/event_log_info.py: find_all_events_names"]}
{"id": "C16", "title": "Follow/precede ratios are probability distributions", "statement": "For an event occurring in the log the directly-follows ratios over all followers (with the fake end) sum to 1 and lie in [0,1]; the Laplace-smoothed ratios are strictly positive and sum to 1 as well.", "quantifier": "every log and event occurring in it (the smoothing weight is the fixed 1/number of names of the code)", "why_tests_cant": "Sums over arbitrary logs, exact arithmetic.", "anchors": ["src/python/ficus/legacy/analysis/event_log_analysis_entropy.py: _calculate_default_entropy, _calculate_laplace_entropy, _calculate_entropy"]}
{"id": "C17", "title": "Entropy is bounded and characterises determinism", "statement": "The default entropy of an event is >= 0, at most 2*log2(number of names + 1), and is 0 exactly when the event always has the same follower and always the same predecessor.", "quantifier": "every log and event name (over exact real arithmetic)", "why_tests_cant": "Analytic inequality over all logs.", "anchors": ["src/python/ficus/legacy/analysis/event_log_analysis_entropy.py: _calculate_entropies, _calculate_entropy"]}
{"id": "C18", "title": "Fast and slow position entropy agree", "statement": "calculate_position_entropy_fast equals calculate_position_entropy for each event and log (same probability vectors, hence the same value), also with ignored events as long as the event itself is not ignored; the index into the vector never leaves it.", "quantifier": "every non-empty log, event and ignored set", "why_tests_cant": "Equivalence of two algorithms on all inputs.", "anchors": ["src/python/ficus/legacy/analysis/event_log_analysis_entropy.py: calculate_position_entropy_fast, calculate_position_entropy, create_events_positions"]}
{"id": "C19", "title": "Direct entropy filters: termination, threshold and untouchables", "statement": "The direct filters always terminate; they only ever remove whole event names (the result is the input with a set of names removed); an untouchable name is never removed; at most max_events_to_remove names are removed when that bound is positive; on normal exit before the bound the maximal metric is <= threshold. A bound of 0 does not mean \"remove nothing\": it behaves as unlimited.", "quantifier": "every log, metric function, threshold and bound", "why_tests_cant": "Loop over an arbitrary metric; termination and invariants for all logs.", "anchors": ["src/python/ficus/legacy/filtering/event_log_filters.py: _do_filter_by_metric_direct, filter_events_default_entropy_direct, filter_events_pos_entropy_direct, _remove_untouchable_events_from"]}
{"id": "C20", "title": "Indirect entropy filters", "statement": "Each step of the indirect filters removes one touchable name minimising the remaining entropy, or nothing at all when no candidate exists; in that case the log never changes and the loop only ends by exhausting max_events_to_remove. With fewer than 20 event classes and top_percent=0.05 the default-entropy indirect filter has no candidates, so it never removes anything.", "quantifier": "every log, entropy function and bound", "why_tests_cant": "Stuck behaviour with default parameters takes 10^9 iterations.", "anchors": ["src/python/ficus/legacy/filtering/event_log_filters.py: filter_events_default_entropy_indirect, next_removal_default_entropy_indirect, filter_events_pos_entropy_indirect"]}
{"id": "C21", "title": "Tandem arrays are genuine", "statement": "Every tandem array reported for a trace lies inside the trace, has repeat count >= 2, its period block is repeated that many times consecutively starting at the reported position, the block after it is not another full repetition, and its period length is between 2 and the maximum (exclusive). Conversely (absent hash collisions) a right-maximal repetition is reported exactly when its block does not occur earlier in the trace; arrays need not be left-maximal and later repetitions of an already seen block are not reported.", "quantifier": "every trace of hashes and every maximal length", "why_tests_cant": "Soundness over all traces.", "anchors": ["src/python/ficus/legacy/analysis/patterns/event_log_patterns.py: _find_maximal_tandem_arrays, _try_extract_tandem_array"]}
{"id": "C22", "title": "Primitive tandem arrays", "statement": "find_primitive_tandem_arrays returns exactly those maximal tandem arrays of the same trace at whose start no block of length c >= 2 with 2c <= length + 1 is repeated twice. So no returned block is a power of a block of length >= 2; blocks that merely begin with such a square are dropped as well, and blocks of one repeated event are kept.", "quantifier": "every trace", "why_tests_cant": "Universally quantified over traces.", "anchors": ["src/python/ficus/legacy/analysis/patterns/event_log_patterns.py: find_primitive_tandem_arrays"]}
{"id": "C23", "title": "Super-maximal repeats are an antichain of the maximal repeats", "statement": "Among the given maximal repeats the super-maximal ones are exactly those that are not contained in another one; no two reported super-maximal repeats contain each other.", "quantifier": "every list of maximal repeats and every trace", "why_tests_cant": "Pairwise containment over arbitrary lists.", "anchors": ["src/python/ficus/legacy/analysis/patterns/event_log_patterns.py: _do_find_super_maximal_repeats, find_near_super_maximal_repeats"]}
{"id": "C24", "title": "Repeat sets: one per distinct set of event classes", "statement": "The repeat sets built from the patterns contain for each distinct set of event classes exactly one representative, namely the first pattern having it.", "quantifier": "every log and family of patterns", "why_tests_cant": "Set-of-sets deduplication over arbitrary inputs.", "anchors": ["src/python/ficus/legacy/analysis/patterns/event_log_patterns.py: _do_create_repeat_sets"]}
{"id": "C25", "title": "The activity tree is a proper inclusion forest over all repeat sets", "statement": "Every repeat set occurs in the built forest; the event set of every child is a subset of its parent's; the roots are exactly the sets not included in a strictly larger one.", "quantifier": "every family of repeat sets", "why_tests_cant": "Structural induction over arbitrary forests.", "anchors": ["src/python/ficus/legacy/analysis/patterns/event_log_patterns.py: _do_build_repeat_set_tree", "src/python/ficus/legacy/analysis/patterns/patterns_models.py: ActivityNode"]}
{"id": "C26", "title": "Activity instances are disjoint, ordered and inside the trace", "statement": "The activity instances extracted from a trace are sorted by start, pairwise disjoint, non-empty and lie within the trace; extraction terminates on every trace.", "quantifier": "every trace, every activity forest", "why_tests_cant": "Loop invariants over all traces and forests.", "anchors": ["src/python/ficus/legacy/analysis/patterns/event_log_patterns.py: _do_extract_activities_from_log, extract_activities_from_log"]}
{"id": "C27", "title": "Instances contain only events of their activity", "statement": "Every event inside an instance has a class belonging to the event set of the instance's activity, also after the activity was narrowed; narrowing returns the activity itself or one of its descendants whose set still covers the instance.", "quantifier": "every trace, forest and narrowing depth", "why_tests_cant": "Narrowing walks an arbitrary tree.", "anchors": ["src/python/ficus/legacy/analysis/patterns/event_log_patterns.py: _do_extract_activities_from_log, narrow_activity"]}
{"id": "C28", "title": "No attachable event is left unattached", "statement": "With the default (always true) filter, every event not covered by an instance has a class which belongs to no top-level activity; covered and uncovered positions partition the trace.", "quantifier": "every trace and forest", "why_tests_cant": "Completeness over all traces.", "anchors": ["src/python/ficus/legacy/analysis/patterns/event_log_patterns.py: _do_extract_activities_from_log, _process_trace_activities, create_log_from_unattached_events"]}
{"id": "C29", "title": "Abstracted log can be expanded back", "statement": "Building the log of activities (inserting all unattached events) and then substituting the underlying events returns exactly the original traces; the number of underlying events is preserved; the abstracted trace is never longer than the original.", "quantifier": "every log and every disjoint ordered family of instances", "why_tests_cant": "Inverse property of two functions over all logs.", "anchors": ["src/python/ficus/legacy/analysis/patterns/event_log_patterns.py: create_new_log_from_activities, calculate_underlying_events_count", "src/python/ficus/legacy/analysis/patterns/util.py: substitute_original_events"]}
{"id": "C30", "title": "Undefined activity strategies", "statement": "With DontInsert the abstracted trace has exactly one event per instance; with InsertAsSingleEvent each maximal run of unattached events becomes exactly one undefined event, which carries only its name (the run itself is lost); with InsertAllEvents they are inserted unchanged. Every trace gives one trace, possibly empty; any other strategy object raises ValueError exactly when some event is unattached.", "quantifier": "every trace, every family of instances, each strategy", "why_tests_cant": "All gap layouts (leading, inner, trailing, none).", "anchors": ["src/python/ficus/legacy/analysis/patterns/event_log_patterns.py: create_new_log_from_activities, _process_trace_activities"]}
{"id": "C31", "title": "Adding activities from unattached events keeps earlier instances", "statement": "add_unattached_activities keeps all earlier instances in order, adds only instances lying inside the gaps between them, and the result is again sorted and disjoint.", "quantifier": "every trace, set of instances and activity forest", "why_tests_cant": "Universal over gap layouts.", "anchors": ["src/python/ficus/legacy/analysis/patterns/event_log_patterns.py: add_unattached_activities"]}
{"id": "C32", "title": "Underlying events are expanded completely and counted exactly", "statement": "substitute_original_events leaves no event with underlying events, at any nesting depth; it is idempotent, distributes over concatenation, and the number of events it yields is the number reported by calculate_underlying_events_count.", "quantifier": "every nesting depth", "why_tests_cant": "Recursive structure of unbounded depth.", "anchors": ["src/python/ficus/legacy/analysis/patterns/util.py: substitute_original_events", "src/python/ficus/legacy/analysis/patterns/event_log_patterns.py: calculate_underlying_events_count, count_underlying_events, execute_with_underlying_events"]}
{"id": "C33", "title": "Pattern tiling of a trace", "statement": "add_all_patterns splits each trace into consecutive non-empty pieces that start at 0; a piece ends exactly where the run of events read so far stops being a part of one of the patterns, and the events after the last piece are not reported.", "quantifier": "every trace and list of patterns", "why_tests_cant": "Overlap resolution over arbitrary lists of patterns.", "anchors": ["src/python/ficus/legacy/analysis/patterns/event_log_patterns.py: add_all_patterns"]}
{"id": "C34", "title": "Grouping activities by level and size", "statement": "split_activities_by_level and the split by size are partitions: each activity is in exactly one group, the key of the group is its level/size, keys are strictly increasing.", "quantifier": "every list of activities", "why_tests_cant": "Partition over arbitrary lists.", "anchors": ["src/python/ficus/legacy/analysis/patterns/util.py: split_activities_by_level, split_activities_by_levels_dict, _split_activity_nodes_by_size, select_traces_activities_for_activity_level"]}
{"id": "C35", "title": "Merging all traces into one", "statement": "merge_all_traces_in_one_log yields one trace whose events are the events of all traces in order with exactly one separator event after each trace; separators are pairwise distinct and distinct from the log's names as long as the uuid source is fresh.", "quantifier": "every log", "why_tests_cant": "Every log and separators.", "anchors": ["src/python/ficus/legacy/analysis/event_log_split.py: merge_all_traces_in_one_log, create_unique_event"]}
{"id": "C36", "title": "Per-activity logs", "statement": "create_logs_for_activities maps each activity name of the requested level to a log having one trace per instance of that activity, holding exactly the events of the instance, in order of occurrence; instances of other levels are ignored.", "quantifier": "every log, family of instances and level", "why_tests_cant": "Counting and ordering over all logs.", "anchors": ["src/python/ficus/legacy/analysis/patterns/event_log_patterns.py: create_logs_for_activities, _create_logs_for_activities"]}
{"id": "C37", "title": "Pipelines are sequential composition", "statement": "Executing a pipeline resets the colours provider once and then executes its parts left to right, the first exception ending it; None arguments are neutral, any other argument that is not a part (a Pipeline included) raises TypeError at construction. Executing p1 and then p2 equals executing the concatenated pipeline exactly when the extra colour reset in between is not observed (refuted in general).", "quantifier": "every list of parts, any nesting depth", "why_tests_cant": "All nestings and all part behaviours.", "anchors": ["src/python/ficus/legacy/pipelines/pipelines.py: Pipeline, _create_pipelines_list"]}
{"id": "C38", "title": "Isolation of pipeline branches", "statement": "The branches of ParallelPipeline all start from the same context entries and cannot see each other's additions, removals or replacements of entries; the result is the last branch's output. The objects in the entries are shared, so a change of the log itself is visible to the following branches and through the input (refuted as isolation). WithInputCopy returns the very input it got with all its entries unchanged, whatever the inner pipeline does to its own context. IfPipeline is the identity when the condition is false.", "quantifier": "every inner pipeline (arbitrary context transformer) and every context", "why_tests_cant": "Quantifies over arbitrary inner pipelines.", "anchors": ["src/python/ficus/legacy/pipelines/pipelines.py: ParallelPipeline, WithInputCopy, WithTempInput, IfPipeline", "src/python/ficus/legacy/pipelines/contexts/part_results.py: PipelinePartResult.__copy__"]}
{"id": "C39", "title": "Context is a faithful key/value store", "statement": "After with_x(v) the accessor x returns v and all other keys are unchanged; accessing a missing key raises; remove makes it missing; a copy is independent of later with_* calls on the original.", "quantifier": "every sequence of operations", "why_tests_cant": "Arbitrary operation sequences.", "anchors": ["src/python/ficus/legacy/pipelines/contexts/part_results.py: PipelinePartResult", "src/python/ficus/legacy/pipelines/contexts/accessors.py"]}
{"id": "C40", "title": "Which parts keep the context", "statement": "Filtering by predicate, trace count and variants keeps all other context entries, whereas removal by name(s), name preprocessing and the entropy filters return a new context holding only the log and leave the given one as it was; parts that mutate the log in place leave all entries as they were; a context without log raises ValueError.", "quantifier": "every context", "why_tests_cant": "All contexts and keys.", "anchors": ["src/python/ficus/legacy/pipelines/mutations/mutations_parts.py", "src/python/ficus/legacy/pipelines/filtering/filter_parts.py"]}
{"id": "C41", "title": "Colours are unique between resets and stable per name", "statement": "RandomUniqueColorsProvider never returns the same colour twice between resets whatever the random source yields; with a source in which every colour keeps coming all 256^3 colours are handed out before OverflowError; a diagram paints every event by its name, one colour per name, and any number of diagrams sharing provider and cached_colors use one colour per name and different colours for different names as long as nothing resets the provider. Refuted: after a reset with surviving cached_colors two names can share a colour; draw_placements_of_events reserves a tuple instead of the colour string, so a selected event can be black and OverflowError comes one colour too early.", "quantifier": "every random sequence and log", "why_tests_cant": "Quantifies over all random outcomes.", "anchors": ["src/python/ficus/legacy/util.py: RandomUniqueColorsProvider", "src/python/ficus/legacy/analysis/event_log_analysis.py: _draw_traces_diversity_like_diagram"]}
{"id": "C42", "title": "gRPC client dispatches every part result to exactly its callback", "statement": "During Pipeline2.execute each streamed part result is delivered exactly once to the callback whose uuid it carries, in stream order; results after the final result are not consumed; the server-side result is dropped iff the final result is a success, with its guid; the backend address is taken from the context and is not sent.", "quantifier": "every pipeline, initial context and response stream", "why_tests_cant": "All interleavings of messages in the stream.", "anchors": ["src/python/ficus/grpc_pipelines/grpc_pipelines.py: Pipeline2.execute"]}
{"id": "C43", "title": "Every callback part reachable in a pipeline is registered", "statement": "append_parts_with_callbacks collects exactly the callback-bearing parts of the pipeline including those nested in parts holding an inner pipeline, at any nesting depth.", "quantifier": "every pipeline tree of the supported parts", "why_tests_cant": "Unbounded nesting.", "anchors": ["src/python/ficus/grpc_pipelines/grpc_pipelines.py: Pipeline2.append_parts_with_callbacks, PipelinePart2.append_parts_with_callbacks", "src/python/ficus/grpc_pipelines/activities_parts.py"]}
{"id": "C44", "title": "Context values survive the wire format", "statement": "A context value can be sent exactly when its numbers fit and its strings are encodable (a plain str or an EventLogInfo never); strings, names logs, unsigned numbers, booleans, known enum variants, string lists and nested pipelines are read by the backend as the same value, a float when it is a binary32 number (0.1 is not: refuted), an unknown enum value is silently dropped and a hashes log always makes the backend panic (refuted). In the other direction a Petri net, graph, annotation, names or colours log and rectangular dataset keep every place, transition, arc, marking, node, edge, entry, rectangle and row (a missing marking reads as an empty one and an event class named cluster_labels is overwritten: refuted).", "quantifier": "every value", "why_tests_cant": "Round trip over all values.", "anchors": ["src/python/ficus/grpc_pipelines/context_values.py", "src/python/ficus/grpc_pipelines/grpc_pipelines.py: _create_initial_context"]}
{"id": "C45", "title": "Artificial start/end events and lifecycle removal", "statement": "AddArtificialStartEndEvents puts exactly one start event first and one end event last in each trace (also an empty one) and changes nothing else; removing the lifecycle attribute removes that key from all events and nothing else.", "quantifier": "every log", "why_tests_cant": "All logs.", "anchors": ["src/python/ficus/legacy/pipelines/mutations/mutations_parts.py: AddArtificialStartEndEvents, RemoveLifecycleTransitionsAttributes", "src/python/ficus/legacy/mutations/event_log_mutations.py: remove_lifecycle_attribute_from_events"]}
{"id": "C46", "title": "Repeated activity discovery terminates and never grows the log", "statement": "DiscoverActivitiesInstancesFromRepeatsUntilNoMore stops on every input provided the before/after pipelines given by the caller end and leave log and instances alone; the log it returns has as many traces, no more events than the first one and unfolds, trace by trace, to the same underlying events; when it returns, either discovery on the returned log finds nothing, or every instance found last is a single event. A before/after pipeline that changes the log can keep it running for ever, and should_narrow_activity=False is not honoured.", "quantifier": "every log, class extractor, instance filter, discovery strategy, set of repeats found, and pair of pipelines", "why_tests_cant": "Termination over all logs.", "anchors": ["src/python/ficus/legacy/pipelines/analysis/high_level.py: DiscoverActivitiesInstancesFromRepeatsUntilNoMore"]}
{"id": "C47", "title": "Event class tree layers", "statement": "build_class_tree builds one layer per extractor; a parent/child link exists exactly when the class of the parent layer is the extractor image of the child's class, and every event class of the log appears once in its layer.", "quantifier": "every log and list of extractors", "why_tests_cant": "Arbitrary extractors.", "anchors": ["src/python/ficus/legacy/analysis/patterns/event_log_patterns.py: build_class_tree"]}
{"id": "C48", "title": "Near-super-maximal repeats are exactly the repeats with a free occurrence", "statement": "find_near_super_maximal_repeats keeps a maximal repeat exactly when one of its occurrences in the trace lies inside no occurrence of another maximal repeat, once each; every super-maximal repeat is kept.", "quantifier": "every trace, every set of maximal repeats, every iteration order of the sets involved", "why_tests_cant": "The result is computed by a greedy pass over intervals in an order that depends on set iteration; examples see one order of one trace.", "anchors": ["src/python/ficus/legacy/analysis/patterns/event_log_patterns.py: _do_find_near_super_maximal_repeats"]}
{"id": "C49", "title": "What filters and mutations share and change", "statement": "On objects: filtering events returns a new log of new traces holding the selected event objects themselves and changes nothing that existed; filtering traces keeps the trace objects; the in-place functions change only dicts of the log's events (AddArtificialStartEndEvents: only the traces' event lists) and, when no event (trace) object occurs twice, the log afterwards shows exactly the result of the function on values. With an event object occurring twice the mutator is applied twice, and renaming in a filtered log renames in the original (both refuted as isolation).", "quantifier": "every heap of objects, log, selection function and mutator, also raising ones", "why_tests_cant": "Aliasing patterns of object graphs cannot be enumerated by tests.", "anchors": ["src/python/ficus/legacy/mutations/event_log_mutations.py: _filter_events, _filter_traces, preprocess_events", "src/python/ficus/legacy/pipelines/mutations/mutations_parts.py: AddArtificialStartEndEvents"]}
{"id": "C50", "title": "Activity diagrams and coloured logs cover each trace exactly", "statement": "A diagram of activities or patterns draws trace k as row k; with sub traces that follow each other the row covers exactly the trace, every position in the colour of its sub trace or of the undefined activity (short diagrams: one cell per piece, in order), a hash has one colour, names with different cached colours keep different ones. The placement diagram shows exactly the instances of the activity, the rest black. Coloured logs (matplotlib and canvas) are side by side, end at the widest row and fit on the canvas.", "quantifier": "every list of trace lengths, sub traces, scales, random source, cached colours", "why_tests_cant": "The drawing code carries positions, gaps and colour caches through nested loops; tests look at pictures of one log.", "anchors": ["src/python/ficus/legacy/analysis/patterns/patterns_graphs.py: _sub_traces_draw_func, draw_activity_placement_diagram", "src/python/ficus/legacy/analysis/event_log_analysis.py: draw_colors_event_log", "src/python/ficus/legacy/analysis/event_log_analysis_canvas.py: draw_colors_event_log_canvas"]}
{"id": "C51", "title": "The backend understands every part of the client", "statement": "A pipeline can be sent exactly when all its parts, at any depth, are real parts with 32 bit numbers and encodable strings; the backend then reads each part, at any depth, as a registered part of the intended kind with each parameter under the intended key and enum variant; every part finds all the configuration it unwraps with the type of its key, except DiscoverActivitiesUntilNoMore2 and DiscoverActivitiesForSeveralLevels2 on tandem array patterns, which always make the backend panic (the length never reaches find_patterns).", "quantifier": "every pipeline of parts with every parameter, at any depth of nesting", "why_tests_cant": "Client and backend share names and keys only by convention; a mismatch shows up only when that part runs with that configuration.", "anchors": ["src/python/ficus/grpc_pipelines/activities_parts.py", "src/python/ficus/grpc_pipelines/discovery_parts.py", "src/python/ficus/grpc_pipelines/patterns_parts.py", "src/rust/ficus_backend/src/pipelines/keys/context_keys.rs", "src/rust/ficus_backend/src/pipelines/pipeline_parts.rs", "src/rust/ficus_backend/src/grpc/converters.rs", "src/rust/ficus_backend/src/grpc/backend_service.rs: to_pipeline"]}
{"id": "C52", "title": "Activities on several levels", "statement": "DiscoverActivitiesForSeveralLevels leaves the log alone; earlier instances stay, in order, and all instances of a trace are disjoint, in order and inside it; new activities come after the old ones, each on the level of one of the extractors, with pairwise different numbers and names Activity_<number>, each made of the classes of one stretch of the searched log and named after them; every new instance has only classes of its activity under one of the extractors; with the default filter and minimal length no event is left whose class on the last level belongs to an activity. Not true: that an instance fits its activity on the activity's own level (all activities are matched with the current extractor), and that with the default single merged trace the instances can be promoted to per-activity logs (the repeat sets point into the merged trace).", "quantifier": "every log, list of extractors, earlier instances, discovery strategy, adjusting mode, filter, minimal length", "why_tests_cant": "Arbitrary logs, extractors and earlier contexts; the loop over levels composes all discovery steps.", "anchors": ["src/python/ficus/legacy/pipelines/analysis/high_level.py: AdjustWithActivitiesFromUnattachedEvents, DiscoverActivitiesForSeveralLevels", "src/python/ficus/legacy/pipelines/analysis/patterns/patterns_parts.py: DiscoverActivitiesFromPatterns, DiscoverActivitiesInUnattachedSubTraces, CreateLogsForActivitiesWithPromote", "src/python/ficus/legacy/analysis/patterns/event_log_patterns.py: build_repeat_set_tree, add_unattached_activities"]}
{"id": "C53", "title": "Executing a pipeline, from the request to the last callback", "statement": "When a pipeline of the client can be sent, its parts run in the backend in order, each with the configuration it was given and on the context left by the part before; log lines and results of nested parts are seen while a part runs; every part with a callback is called once per place in the pipeline, after it ran, with exactly the values it asked for; the result is success, after which the execution is dropped, or the error of the first part that failed, and no final message after a panic. A callback never misses a value it reads. PrintNumberOfUnderlyingEvents2 always prints 0 (the backend has no conversion for that key).", "quantifier": "every pipeline, initial context, behaviour of the registered parts, callbacks (also raising ones) and drop result", "why_tests_cant": "Needs a backend; arbitrary pipelines, failures at any point.", "anchors": ["src/python/ficus/grpc_pipelines/grpc_pipelines.py: Pipeline2.execute, PipelinePart2WithCallback", "src/rust/ficus_backend/src/grpc/get_context_pipeline.rs", "src/rust/ficus_backend/src/grpc/backend_service.rs: execute_pipeline", "src/rust/ficus_backend/src/grpc/converters.rs: convert_to_grpc_context_value"]}
{"id": "C54", "title": "Pictures of Petri nets and graphs", "statement": "The picture drawn for a Petri net received from the backend has one node per place and transition, with distinct names when ids are distinct, and one edge per arc from place to transition or back, labelled with the annotation of the arc; nets with the same picture have the same places, labelled transitions and arcs and the same places in the initial marking; a graph is drawn with one node per node and one edge per edge with its label. Not shown: how many tokens a place holds or an arc moves, and that a place of the initial marking is also final.", "quantifier": "every net, graph, annotation, and message around them", "why_tests_cant": "Pictures are looked at by eye; arbitrary nets and annotations.", "anchors": ["src/python/ficus/legacy/discovery/petri_net.py: draw_petri_net", "src/python/ficus/legacy/discovery/graph.py: draw_graph", "src/python/ficus/grpc_pipelines/discovery_parts.py: ViewPetriNet2, AnnotatePetriNetWithCount2"]}
{"id": "C55", "title": "Reports on activities and marking of events", "statement": "Adding activity names to events changes nothing but the entry \"activity\" of events covered by an instance, which becomes the name of the last instance listed that covers it, and fails if an instance reaches beyond its trace; for sorted disjoint instances an event bears a name exactly if an instance of that name covers it. The file of instance positions determines the instances of every trace; the file of instance names has one line per activity, in order of first occurrence. The printed hashes list every activity of the forest once, breadth first. The file of activity names has one section per level, ascending, with different names, including all top activities; it holds all names when they differ. Names of unattached events and their share are those of exactly the events no instance covers. Not kept: when two activities have the same name, activities below the second one visited are missing from the file of names.", "quantifier": "every log, instance list, forest and set order", "why_tests_cant": "Concerns all placements of instances and all forests; files and printed text are not compared by tests.", "anchors": ["src/python/ficus/legacy/pipelines/analysis/patterns/patterns_parts.py: AddActivityNameToAllEvents, WriteActivitiesInstancesIndices, SaveAllActivitiesNames, SaveAllActivitiesInstancesNames, PrintActivitiesNamesToHashes, PrintUnattachedEvents, CalculatePercentageOfUnattachedEvents"]}
{"id": "C56", "title": "Graphs of activities and event classes", "statement": "A graph built from a forest shows nodes of pairwise different names, among them every top node and every child of a shown node, and the edge from child to parent for each child of a shown node; when names differ it shows every node and every link exactly once. For activities discovered in a log whose class names are non-empty and hold no \":\" that is one node per repeat set. The graph of the tree of event classes shows every class of every layer and its class on the next layer, if no class is on two layers, and its serialized form does not depend on the order of iteration of the set of names. Serialized graphs are equal exactly when they consist of the same lines. Drawing by levels gives one graph per level, under different paths. Not kept: nodes of equal name are merged and the children of the second one lost (classes kept by an extractor, class names with \"::\", equal hashes of names), the serialized form then depends on the order of the set, and use_hashes_as_name is ignored by drawing by levels.", "quantifier": "every forest, naming, log, class extractor, set order, level and save path", "why_tests_cant": "Needs all shapes of forests and all coincidences of names; the order of a set changes from run to run; pictures are looked at by eye.", "anchors": ["src/python/ficus/legacy/analysis/patterns/patterns_graphs.py: build_graph, draw_activity_graph", "src/python/ficus/legacy/pipelines/analysis/patterns/patterns_graph_parts.py: BuildActivityGraph, BuildEventClassGraph, DrawActivitiesGraphByEventClassLevels, SerializeGraph"]}
{"id": "C57", "title": "Clusters of traces and activities", "statement": "Rows of a clustered dataset have the same colour exactly when they have the same label, and a label keeps a colour given earlier. The logs of the clusters of traces hold every trace once: one log per cluster and one for all traces left out, in order. The grid search takes the smallest number of clusters with the highest score. After merging activities a position of a trace is covered by the name its activity has now, neighbours of one name are joined, order is kept; the node of a cluster has the classes of its activities. Merging never fails when repeat sets lie in the log. The picture has one series per label, with the points of its rows, its name, and a colour no other series has. Not kept: with DBSCAN the legend counts clusters from 1 and the log from 0; instances of activities left out are joined too; a second clustering reuses names, so that instances of an old cluster are swallowed by a new one.", "quantifier": "every labelling, random colours, colour holder, log of instances, score function and dimension reduction", "why_tests_cant": "Labels and colours are random; merged instances depend on all neighbourhoods of instances; pictures are looked at by eye.", "anchors": ["src/rust/ficus_backend/src/features/clustering/activities/merging.rs: merge_activities", "src/rust/ficus_backend/src/features/clustering/common.rs: create_colors_vector", "src/rust/ficus_backend/src/features/clustering/traces/dbscan.rs: clusterize_log_by_traces_dbscan", "src/rust/ficus_backend/src/features/clustering/activities/k_means.rs: clusterize_activities_k_means_grid_search", "src/python/ficus/legacy/analysis/event_log_analysis.py: draw_scatter_plot_for_dataset_visualization"]}
{"id": "C58", "title": "Datasets of traces and activities", "statement": "The dataset that traces are clustered by has a row per trace, a column per event class that occurs, in ascending order, and the number of events of the class, scaled per column to [0, 1] (constant columns are 1). Two traces have equal rows exactly when they have the same events up to order and class. For the Levenshtein distance two rows are equal exactly when the sequences of classes are. The dataset of the activities of a level has one row per name, in ascending order, taken at the first instance of that level; equal rows mean equal numbers of every class. No dataset depends on the order of a set. It fails exactly when classes are wanted and an activity has no repeat set, which is the case after every merge of activities into a cluster. Not kept: with the other sources clusters of activities with different classes have equal rows.", "quantifier": "every log with nested underlying events, class extractor, set order, level and list of instances; fewer than 2^53 events per row", "why_tests_cant": "Column order and scaling depend on the whole log and on hash order; that rows identify traces up to order is a statement about all pairs of traces.", "anchors": ["src/rust/ficus_backend/src/features/clustering/traces/dbscan.rs: create_traces_dataset_default_internal", "src/rust/ficus_backend/src/features/clustering/traces/dbscan.rs: create_traces_dataset_levenshtein_internal", "src/rust/ficus_backend/src/features/clustering/activities/activities_common.rs: create_dataset", "src/rust/ficus_backend/src/features/clustering/common.rs: scale_raw_dataset_min_max"]}
{"id": "C59", "title": "Distances between rows", "statement": "The distance called Levenshtein between two rows of equal length is the smaller one of the Levenshtein distances from the first row and from the first row without its first symbol: at most one less than the Levenshtein distance of the rows, and zero exactly for equal rows. Between two traces of a dataset it lies between the number of edits that turn one sequence of classes into the other less one and twice that number. It is not the Levenshtein distance, not symmetric and does not fulfil the triangle inequality. The cosine distance of nonzero rows without negative numbers lies between 0 and 1, is 0 exactly for rows in proportion, 1 exactly for rows that share no column, and symmetric; with f64 its value from a row of zeros (a trace without events) is not a number and thus within no tolerance.", "quantifier": "all rows of symbols, logs and class extractors; all rows of real numbers; all rows of binary64 numbers", "why_tests_cant": "The first line of the matrix is off by one, which shows for few pairs of rows only; a metric is a statement about all triples of rows.", "anchors": ["src/rust/ficus_backend/src/utils/distance/distance.rs: LevenshteinDistance::distance", "src/rust/ficus_backend/src/utils/distance/distance.rs: CosineDistance::distance"]}
{"id": "C60", "title": "What is printed, saved and plotted about a log", "statement": "The overview of a log prints the numbers of its traces, events and different names, before and after an operation those of the log given and of the log returned. The printed directly-follows graph has one block for every selected name with a follower and in it every follower once with the number of the steps. The file of event names has every name once; it can be read back exactly when no name runs into the separator. The histogram has one bar per variant, as high as the number of its traces, if no two names share a hash; in any case the bars are the groups of the split and their sum is the number of traces. Several logs fill the smallest square grid row by row. The legend of a canvas has every name once, without overlap and above the lower end of the canvas; it is cut off at the right exactly for a canvas narrower than 60. A log is saved exactly if the path has a directory. Histograms of one log alone never are drawn.", "quantifier": "all logs, selectors, inner pipelines, lists of logs and names, coloured logs and scales, paths and file systems", "why_tests_cant": "The order and the counts hold for logs of any size; the failures show only for names with line ends, narrow diagrams, a single log and bare file names.", "anchors": ["src/python/ficus/legacy/pipelines/analysis/analysis_parts.py: PrintEventLogInfo, PrintEventLogInfoBeforeAndAfter, PrintDFG, SaveAllEventNames, TracesHistogram", "src/python/ficus/legacy/analysis/event_log_analysis.py: _create_array_for_hist, plot_logs_traces_histograms", "src/python/ficus/legacy/analysis/event_log_analysis_canvas.py: _draw_legend", "src/python/ficus/legacy/log/functions.py: save_event_log_to_xes"]}
{"id": "C61", "title": "Replay of a log on a Petri net and its annotations", "statement": "For a net without two arcs from one place to the same transition, replay of a trace gives a run of the net, by the usual firing rule, whose visible transitions spell the trace, or there is no such run, silent transitions anywhere included. It never panics, it ends when silent transitions cannot fire for ever (weights of places suffice), and which traces are replayed does not depend on the order of the HashMap. The count of an arc is how often its transition was fired over all replayed traces; an arc never used has no count; with the flag one unreplayable trace leaves no annotation. Frequencies add up to one; frequencies by trace divide by the number of all traces. Making an initial marking adds one place with one token before the transitions of first events and one after those of last events; afterwards a transition can fire first only if nothing led to it before; an empty trace is a panic. Not true: that the log is replayable then, that every net replays without panic, that replay always ends, that a replayed trace ends in the final marking, that the counts are independent of the order of the HashMap, that a frequency by trace is at most one.", "quantifier": "all nets, markings, logs, orders of hash maps and numbers of steps", "why_tests_cant": "The search is exponential and its order random per process; tests see one order, small nets and logs that end.", "anchors": ["src/rust/ficus_backend/src/features/discovery/petri_net/replay.rs: replay_petri_net, ReplayState::handle_transition", "src/rust/ficus_backend/src/features/discovery/petri_net/annotations.rs: annotate_with_counts, annotate_with_frequencies, annotate_with_trace_frequency", "src/rust/ficus_backend/src/features/discovery/petri_net/marking.rs: ensure_initial_marking", "src/rust/ficus_backend/src/pipelines/annotations_parts.rs: annotate_petri_net"]}
{"id": "C62", "title": "What the backend counts in a log and its directly follows graph", "statement": "Whatever the order in which hash tables are walked over, the backend counts every class, every directly follows pair, every follower and predecessor and the classes with a single follower exactly as the log without the ignored names says, with or without artificial starts and ends, and as the Python library does; start and end classes are the first and last names of the traces. The directly follows graph is always made from such counts without artificial events: one node per class and one edge per pair, labelled with its count. Connecting and disconnecting nodes change that edge only; outgoing and incoming nodes are those with an edge. Not true: that ignored names do not count (the number of events and the start classes include them), that the graph can be made from counts with artificial events, that all_connected_nodes gives the neighbours of a node.", "quantifier": "all logs, sets of ignored names, orders of hash tables and graphs", "why_tests_cant": "The order of HashMap iteration is random per process and logs are unbounded; tests fix one log and see some orders.", "anchors": ["src/rust/ficus_backend/src/features/analysis/event_log_info.rs: EventLogInfo::create_from, DfgInfo", "src/rust/ficus_backend/src/features/analysis/directly_follows_graph.rs: construct_dfg", "src/rust/ficus_backend/src/utils/graph/graph.rs: Graph"]}
{"id": "C63", "title": "The net which the alpha algorithm of the backend discovers", "statement": "For any log and whatever the order in which hash tables are walked over, discovery by the alpha algorithm ends without a panic. The net has one transition per class, none of them silent, a place where exactly the first events of traces start, a place where exactly the last ones end, and besides these exactly one place for each maximal pair of sets of classes such that everything in the first is directly followed by everything in the second but not conversely and nothing within a set follows anything of it; there are no other places or arcs, no arc occurs twice, and all ids differ. So two classes are connected by a place iff one follows the other, not conversely, and neither follows itself. The order of hash tables does not change which places there are. Replay of any log on the net ends with right answers, and a log which repeats one trace of different names is replayed from the start place to the end place. Not true: that the net replays the log it was discovered from; that the comparison of sets by hash tells any two sets apart (those of the algorithm it does).", "quantifier": "all logs, orders of hash tables and starting ids", "why_tests_cant": "The fixed point loop over sets has to end and miss no maximal set for every log and every order of hash tables, of which a test sees one.", "anchors": ["src/rust/ficus_backend/src/features/discovery/alpha/alpha.rs: discover_petri_net_alpha, do_discover_petri_net_alpha, create_initial_sets, maximize_sets, filter_out_non_maximal_sets, create_petri_net", "src/rust/ficus_backend/src/features/discovery/alpha/utils.rs: maximize", "src/rust/ficus_backend/src/features/discovery/alpha/alpha_set.rs: AlphaSet", "src/rust/ficus_backend/src/utils/sets/two_sets.rs: TwoSets", "src/rust/ficus_backend/src/pipelines/discovery_parts.rs: discover_petri_net_alpha"]}
{"id": "C64", "title": "The nets which the alpha+ and alpha++ algorithms of the backend discover", "statement": "Alpha+ gives a net exactly for those logs all of whose traces have at least two events and in which no trace starts or ends with a class that directly follows itself; for all others it is a panic. The net is that of the alpha algorithm on the log without the classes which follow themselves, with two classes which follow each other connected if each occurs around the other, and with one transition more for each class which follows itself; that transition takes its token from one place and puts it back there, nothing else is changed. If class names have no commas or braces, that place is the one from the classes before to the classes after, if these are a maximal pair; else no run of the net ever has the class, so no trace with it is replayed. Between other classes there is a place iff the relation of alpha+ holds. Alpha++ gives for every log, order and number of steps exactly what alpha+ gives. Replay on the net ends with right answers. Not true: that every log has a net; that the net replays the log it was discovered from; that with commas in names the place of a loop is that of the classes around it.", "quantifier": "all logs, orders of hash tables, starting ids and numbers of steps", "why_tests_cant": "That alpha++ never differs from alpha+, that a transition is dead in all runs, and for which logs there is a panic are statements about all logs and all runs.", "anchors": ["src/rust/ficus_backend/src/features/discovery/alpha/alpha.rs: discover_petri_net_alpha_plus, add_one_length_loops, add_alpha_plus_plus_transitions, find_transitions_one_length_loop", "src/rust/ficus_backend/src/features/discovery/alpha/providers/alpha_plus_provider.rs: AlphaPlusRelationsProviderImpl, calculate_triangle_relations", "src/rust/ficus_backend/src/pipelines/discovery_parts.rs: discover_petri_net_alpha_plus, discover_petri_net_alpha_plus_plus"]}
{"id": "C65", "title": "The suffix tree of the backend finds a word at all its positions", "statement": "For every word and pattern, find_patterns on the suffix tree built of the word gives exactly the ranges at which the pattern is in the word, in order and each once, or none if it is nowhere; building and searching never panic and always end, whatever the order of the hash maps. For the tree of the traces of a log a pattern is found iff it is in some trace, no word across two traces is found, and the ranges are those which begin before the tail of the merged text: the longest end of it which is there before. Not true: that all positions of a pattern in a log are found.", "quantifier": "all words, patterns, logs and orders of hash tables", "why_tests_cant": "The tree is built with suffix links and lazily split edges; that no suffix is ever lost depends on an invariant over all words.", "anchors": ["src/rust/ficus_backend/src/utils/suffix_tree/suffix_tree_build.rs: SuffixTree, build_tree, go, split, get_link", "src/rust/ficus_backend/src/utils/suffix_tree/suffix_tree_patterns.rs: find_patterns, dfs_pattern_search", "src/rust/ficus_backend/src/utils/suffix_tree/suffix_tree_slice.rs: SingleWordSuffixTreeSlice, MultipleWordsSuffixTreeSlice"]}
{"id": "C66", "title": "The repeats which the backend finds in traces", "statement": "For each trace and kind of repeats the ranges found name exactly the words whose positions fulfil the condition of the kind, each word once, at one of its positions and in order; never a panic, for every order of the hash maps. A maximal repeat so found has two positions with different neighbours on both sides. Super maximal repeats are exactly the words which repeat and are part of no longer word which repeats. Near super maximal ones are maximal and have a position in no longer repeating word. Super maximal ones are among the near super maximal ones and these among the maximal ones. Any word which repeats is part of a word found. With the strategy which merges the traces the words have no separator, are at two places of the log, and are again exactly those with the condition, for positions before the tail. Not true: that every maximal repeat is found; that every near super maximal one is, when the free position is the start of the trace; that two equal traces have a repeat in the merged strategy.", "quantifier": "all logs, kinds of repeats and orders of hash tables", "why_tests_cant": "Which words are repeats of a trace is a statement about all pairs of positions of all its words.", "anchors": ["src/rust/ficus_backend/src/utils/suffix_tree/suffix_tree_repeats.rs: find_repeats, dfs_repeats, add_repeats", "src/rust/ficus_backend/src/utils/hash_map_utils.rs: increase_in_map_by, compare_maps_by_keys", "src/rust/ficus_backend/src/features/analysis/patterns/repeats.rs: find_maximal_repeats, find_super_maximal_repeats, find_near_super_maximal_repeats"]}
{"id": "C67", "title": "Tandem arrays and repeat sets of the backend", "statement": "The tandem arrays of a trace are exactly the repetitions of blocks of two classes or more, shorter than the given length, which go on as long as possible and whose block has a hash not seen before; without collisions, whose block is not in the trace before; then they are those of the Python library, in the same order. They are found iff no hash overflows. Primitive ones are those where no shorter block is repeated at the start. The repeat sets are sorted by trace, start and length, come from the patterns, no two with the same classes; without collisions they are the first pattern for each class set, so all patterns have their classes in some of them. The order of hash tables does not matter. Not true: that every class set is found; that every repetition is found.", "quantifier": "all traces, logs, lengths, patterns, hash functions of std and orders of hash tables", "why_tests_cant": "Exactness speaks about all blocks of all traces, and collisions of a hash with about 10^9 values do not come up in tests.", "anchors": ["src/rust/ficus_backend/src/utils/hash_utils.rs: calculate_poly_hash_for_collection", "src/rust/ficus_backend/src/features/analysis/patterns/tandem_arrays.rs: find_maximal_tandem_arrays, find_primitive_tandem_arrays", "src/rust/ficus_backend/src/features/analysis/patterns/repeat_sets.rs: build_repeat_sets"]}
{"id": "C68", "title": "The forest of repeat sets of the backend", "statement": "The nodes of the forest are the given sets, one for each, shared by all nodes above it. The roots are the sets strictly inside of no other one. Below a node which is not of the largest size hang all sets strictly inside of it, each once; below one of the largest size hang those which are strictly inside of sets of that size only. For repeat sets found in a log building never panics. Not true: that a set inside of another one is below it; that the children of a node are the largest sets inside of it.", "quantifier": "all lists of different class sets and all logs", "why_tests_cant": "Which nodes hang below which depends on all the other sets of a log.", "anchors": ["src/rust/ficus_backend/src/features/analysis/patterns/repeat_sets.rs: build_repeat_set_tree_from_repeats"]}
{"id": "C69", "title": "The activity instances which the backend finds", "statement": "In any log, with any activities, narrowing and filter the search ends without a panic; the instances of a trace are ordered, do not overlap, and are exactly the greedy segments of the trace, each with the activity which narrowing gives, that the filter lets through: enough classes in the activity and more events than half of them. Each instance has classes of its activity only; without a filter exactly the positions with a class of some activity are covered. Narrowing gives a smallest activity below which has all classes. Adding instances keeps those there and adds what the search finds in the maximal stretches outside of them which are long enough. Not true: that narrowing up and down differ.", "quantifier": "all logs, forests of activities, kinds of narrowing and filters, and instances found before", "why_tests_cant": "The segments depend on all activities at once and on every position of a trace.", "anchors": ["src/rust/ficus_backend/src/features/analysis/patterns/activity_instances.rs: extract_activities_instances, narrow_activity, process_activities_in_trace, add_unattached_activities"]}
{"id": "C70", "title": "Logs which the backend makes of activity instances", "statement": "With instances in order, as they are found in any log, the new log is made without a panic, with as many traces: each instance turns into one event at its start with the covered events below it, and outside of instances the events stay, or each maximal stretch turns into one event, or nothing is left. Putting events back gives exactly the events at the bottom, and counting them counts these. With all events kept, any number of rounds keeps the events at the bottom and never adds events; each instance of n events takes away n-1. The log of unattached events has exactly the events outside of instances. The logs by activity have a trace for each instance or event of the name, in order; both ways of making them agree on logs without events below events. Names of activities are the bracketed parts, and tell different ones apart if no part has a closing bracket. Not true: that names always tell apart; that the old log is kept when stretches are merged; that both ways always agree.", "quantifier": "all logs with events below events to any depth, instances in order, strategies, names and any number of rounds", "why_tests_cant": "Rounds pile up events below events to any depth; tests check one round on small logs.", "anchors": ["src/rust/ficus_backend/src/features/analysis/patterns/activity_instances.rs: create_new_log_from_activities_instances, create_activities_logs_from_log, create_log_from_traces_activities, create_activity_name, count_underlying_events, create_log_from_unattached_events, substitute_underlying_events", "src/rust/ficus_backend/src/pipelines/activities_parts.rs: substitute_underlying_events"]}
{"id": "C71", "title": "The parts which look for activities", "statement": "A search for patterns, activities and instances works on every log with the needed keys and a valid regex, unless the hash of a word overflows; what it finds depends on the log only and is in order. Looking for activities until there is no more always ends, after at most as many rounds as there are events, with as many traces, not more events, nothing left of the search in the context, and with all events kept the same events at the bottom; the last search found no instance of two events or more. The given pipeline is executed with the instances of a round, of which there are some, on fewer events each time; for the last round only: once at most, with single events only. Looking on several levels, for repeats, keeps the log and all instances and adds the activities of each level, with that level. A pipeline for each activity log is executed once for each name, with its log and nothing else. Not true: that the pipeline for the last round is always executed; that several levels work for tandem arrays (always a panic, as their length is not handed on), or for unattached events when there are no instances yet.", "quantifier": "all logs, configurations, kinds of patterns, regexes, hash functions, orders of hash tables, pipelines that leave the log and the instances, and any number of rounds", "why_tests_cant": "Each round changes the log for the next one; the end of the rounds and what is true then depend on all of them, and on hashes.", "anchors": ["src/rust/ficus_backend/src/pipelines/activities_parts.rs: discover_activities_until_no_more, discover_activities_instances_for_several_levels, adjust_with_activities_from_unattached_events, discover_activities_in_unattached_subtraces, execute_with_each_activity_log, do_discover_activities, do_discover_activities_instances, do_create_log_from_activities", "src/rust/ficus_backend/src/pipelines/patterns_parts.rs: find_patterns", "src/rust/ficus_backend/src/pipelines/util_parts.rs: create_hashed_event_log", "src/rust/ficus_backend/src/event_log/core/event/event_hasher.rs"]}
{"id": "C72", "title": "Filters, variants and changes of events in the backend", "statement": "A filter by name or regex removes exactly the events that match and then the traces without events; two filters commute, filtering twice is filtering once; an invalid regex is an error, a regex that fails for one name a panic. A filter by count keeps exactly the traces with at least that many events. The groups of traces exist for every log, do not depend on the order of hash tables, hold each trace once, in order, and two traces are in one group iff the hashes of their names agree everywhere; if hashes tell the names of the log apart, the groups are the variants. The filter by variants keeps the first trace of each, in order; doing it again changes nothing. Artificial events are added at both ends of each trace and nothing else changes; names taken out and put back are the same, one second apart; a class extractor renames only events whose name matches the filter and only to what is found at the beginning of the name. A new or copied trace counts and places its names right. Not true: that a filter keeps traces without matching events (empty ones are lost); that every variant is kept (for no hash of 64 bits); that a trace whose events changed after it was asked still counts right.", "quantifier": "all logs, names, regexes with any behaviour, hash functions, orders of each hash table, counts, and sequences of changes of a trace", "why_tests_cant": "Loops remove from the back while they run; groups come from nested hash tables whose order changes from run to run and from a hash that may collide.", "anchors": ["src/rust/ficus_backend/src/pipelines/filtering_parts.rs", "src/rust/ficus_backend/src/pipelines/mutations_parts.rs", "src/rust/ficus_backend/src/pipelines/util_parts.rs: get_names_event_log, use_names_event_log", "src/rust/ficus_backend/src/pipelines/activities_parts.rs: apply_class_extractor", "src/rust/ficus_backend/src/features/mutations/split.rs", "src/rust/ficus_backend/src/features/mutations/filtering.rs", "src/rust/ficus_backend/src/features/mutations/mutations.rs", "src/rust/ficus_backend/src/event_log/core/trace/traces_holder.rs", "src/rust/ficus_backend/src/event_log/core/event/events_holder.rs"]}
{"id": "C73", "title": "Logs from and to pm4py, and what a pipeline starts with", "statement": "The log made of a log of pm4py has the same traces with the same attributes and events, in order, and all attributes, extensions, classifiers, properties and globals. The way back keeps the events of each trace, in order, and leaves every attribute out; so a log comes back from pm4py as it was iff it had no metadata, and its events come back always. A pipeline that reads a log takes only texts, one that uses a log takes only logs, and the empty start takes anything and gives no log. Not true: that the attributes of traces come back.", "quantifier": "all logs of pm4py and of the project whose events are dictionaries, and all inputs", "why_tests_cant": "Whether metadata gets lost depends on which field a log happens to have; a test has one log.", "anchors": ["src/python/ficus/legacy/log/pm4py_converters.py", "src/python/ficus/legacy/pipelines/start/start_parts.py"]}
{"id": "C74", "title": "The patch of generated modules", "statement": "The patch of a generated module never fails. The lines of the result that are not empty are those of the module, in order: a line without an import is unchanged; a line with one is unchanged, or its second word is one of the generated modules and has the package in front; it has so whenever that word is followed by a space. Not true: that each import of a generated module is changed (without an alias the word ends with the newline).", "quantifier": "all texts, packages without newline, and lists of module names without newlines or spaces", "why_tests_cant": "The texts come from a generator whose versions differ.", "anchors": ["src/python/infra/generate_models.py: patch_common_types"]}
{"id": "C75", "title": "Many clients of the backend at once", "statement": "Under any schedule of requests, steps of executions, clients receiving or hanging up, reads of context values and drops: what a client has received is the start of the stream its request alone would get, and all of it when its execution is over and it read to the end; after it was told of success the context of its execution can be read under its identifier, and dropped, until it is dropped; an answer comes from a successful execution of that identifier or says there is none; after a drop answered with true nothing is ever found again. No execution gets stuck for ever, none takes more steps than its messages plus two, and what a client sees depends on nothing but its own request and steps. A client that hangs up when no log message is left to send leaves the context behind; one that is more than four messages away from a log message does not. Not true: that nothing is kept when all clients are gone.", "quantifier": "all registered parts, requests, identifiers that differ, and interleavings of any length", "why_tests_cant": "Interleavings of threads, channels and clients are unbounded and not under the control of a test.", "anchors": ["src/rust/ficus_backend/src/grpc/backend_service.rs: execute_pipeline, get_context_value, drop_execution_result", "src/rust/ficus_backend/src/grpc/logs_handler.rs: handle", "src/rust/ficus_backend/src/grpc/get_context_pipeline.rs: execute"]}
{"id": "C76", "title": "A log written to a file by the backend and read again", "statement": "A log that the backend writes to a XES file is always read again. Traces with events come back in order; each event has its name and, for each key, its value as a 64-bit integer, text, boolean, date, float or identifier, or the default of the log when the value cannot be read; extensions, classifiers and scopes come back with escaped texts and properties sorted by name. Logs with texts free of markup and readable values come back the same. Not true: that texts of extensions come back; they grow each time. An event at a time that is written in a form that is not read, such as the artificial start and end events, is lost.", "quantifier": "all logs the backend can hold (distinct keys, names and times not in the payload, keys of classifiers without spaces), all ways dates, floats and identifiers are written and read", "why_tests_cant": "All shapes of logs, texts with markup, types of values and defaults interact.", "anchors": ["src/rust/ficus_backend/src/event_log/xes/reader/file_xes_log_reader.rs: FromFileXesEventLogReader::next, try_read_global", "src/rust/ficus_backend/src/event_log/xes/reader/xes_log_trace_reader.rs: TraceXesEventLogIterator", "src/rust/ficus_backend/src/event_log/xes/writer/xes_event_log_writer.rs: serialize_event_log", "src/rust/ficus_backend/src/event_log/xes/reader/utils.rs: extract_payload_value"]}
{"id": "C77", "title": "Any file given to the backend as a log", "statement": "A well nested file whose entities are the known ones is read; only unknown entities in keys and values make reading panic; reading a well nested file ends; text between tags does not matter. Reading a file that was cut inside a trace never ends, and one cut between traces, or with an error in the XML there, reads as the file of the traces before. Not true: that each file is read or refused, or that a well nested file does not make reading panic.", "quantifier": "all sequences of XML events, nested to any depth, and all cuts of written files", "why_tests_cant": "Files come from other tools and from interrupted transfers; all shapes and cut points count.", "anchors": ["src/rust/ficus_backend/src/event_log/xes/reader/file_xes_log_reader.rs: FromFileXesEventLogReader::next, try_read_global", "src/rust/ficus_backend/src/event_log/xes/reader/xes_log_trace_reader.rs: TraceXesEventLogIterator::next, try_parse_event_from"]}
{"id": "C78", "title": "Heuristic miner gives the net of its relations", "statement": "For a log whose traces have at least two events and whose names do not look like those of silent transitions, DiscoverPetriNetHeuristic ends and gives this net, in whatever order hash tables are walked over: one transition for each name; behind each name on which others depend (often enough, above the threshold, and not much weaker than the strongest) one place; for each largest group of dependent names which pairwise happen together one silent transition from that place to a place in front of each name of the group; other dependent names take from the place directly; names which alternate get the arcs of one another turned round; all ids distinct; no marking. With a threshold that is not negative no two names depend on one another both ways, and the strongest follower is kept. Silent transitions never fire for ever, and without names which alternate any log can be replayed from any marking. A trace of less than two events is a panic. Not true: that the log itself is replayed, that replay never panics, that the order does not matter when names look like those of silent transitions.", "quantifier": "all logs, all thresholds, all orders of hash tables, all numbers of rounds", "why_tests_cant": "Groups are cliques merged in the order of a hash table until nothing merges; whether all largest ones are found in every order, and whether merging ends, cannot be seen from runs.", "anchors": ["src/rust/ficus_backend/src/features/discovery/heuristic/heuristic_miner.rs: discover_petri_net_heuristic, construct_heuristic_petri_net, add_length_two_loops", "src/rust/ficus_backend/src/features/discovery/heuristic/relations_provider.rs: HeuristicMinerRelationsProvider", "src/rust/ficus_backend/src/features/discovery/alpha/utils.rs: maximize"]}
{"id": "C79", "title": "A log the client writes and the backend reads", "statement": "Whatever save_event_log_to_xes of the client writes is read by the backend without panic. Traces with an attribute or an event inside arrive in order; an event arrives if it has an attribute that is not as declared, and a name and a time, its own or declared; each key has its own value if the backend understands it (texts, dates and floats that parse, integers of 64 bits), else the declared value; declared values of scopes that are not empty arrive, extensions with prefix and uri and classifiers with escaped texts. Properties of the log and attributes of traces never arrive. The client can write exactly the logs whose declared values have types of XES and whose properties are texts. Not true: that booleans arrive, that events with a name and a time arrive, that the number of traces stays.", "quantifier": "all logs the client can hold, all comparisons of values, all ways dates, floats and identifiers are parsed", "why_tests_cant": "The two programs write and read the format each in their own way; which logs lose what depends on the shape, types, escapes and defaults of the whole log.", "anchors": ["src/python/ficus/legacy/log/functions.py: serialize_log_to_tree, save_event_log_to_xes, read_log_from_xes", "src/rust/ficus_backend/src/event_log/xes/reader/file_xes_log_reader.rs: FromFileXesEventLogReader::next"]}
{"id": "C80", "title": "A log the backend writes and the client reads", "statement": "read_log_from_xes of the client reads a file the backend wrote exactly when each date, time stamp and float in a property or an event is one the client can parse; otherwise it fails with the error of one of them and gives no log. What is read: the traces that have events, in order; each event with its name, time and values as text, integer, float, date, and True for any boolean; for keys it does not have, or whose value is an identifier, the declared text; declared values of all scopes as texts, extensions, classifiers, and properties sorted by name. Texts lose tabs and ends of lines, and only these. Not true: that booleans arrive as they were, that identifiers arrive.", "quantifier": "all logs for failing or not; for the content logs with distinct names and keys on one line; all ways dates and floats are shown and parsed", "why_tests_cant": "Each value type, default and text is written by one program and interpreted by another; one value that does not parse loses the log.", "anchors": ["src/rust/ficus_backend/src/event_log/xes/writer/xes_event_log_writer.rs: serialize_event_log", "src/python/ficus/legacy/log/functions.py: serialize_log_to_tree, save_event_log_to_xes, read_log_from_xes"]}
{"id": "C81", "title": "Edges shown by the fuzzy miner", "statement": "discover_graph_fuzzy (pipeline part DiscoverFuzzyGraph) shows one node for each activity more frequent than the unary bound, and an edge from a to b exactly when: a is directly followed by b more often than the binary bound; if there are edges both ways and the share of one of them is below the preserve threshold, then the share of this one exceeds that of the other one by more than the ratio; and among the edges into b its use (a mix of frequency and average time) normalised between least and most useful is at least the edge threshold. The edge carries the number of times b follows a. Two runs agree. A most useful edge into an activity stays if the edge threshold is at most 1, none if it is above. An edge from an activity to itself is lost exactly when weak. Not true with a negative ratio: that the edges do not depend on the order of hash tables.", "quantifier": "all logs, thresholds (ratio at least 0), orders of hash tables", "why_tests_cant": "The loops run over hash tables in unspecified order and remove edges while going; a test sees one order and one set of thresholds.", "anchors": ["src/rust/ficus_backend/src/features/discovery/fuzzy/fuzzy_miner.rs: discover_graph_fuzzy, initialize_fuzzy_graph, resolve_conflicts, filter_edges", "src/rust/ficus_backend/src/pipelines/discovery_parts.rs: discover_fuzzy_graph"]}
{"id": "C82", "title": "Clusters of the fuzzy miner", "statement": "discover_graph_fuzzy ends without a panic. An activity is put into a cluster exactly when it is rarer than the node cutoff and has an edge to another activity or another activity has an edge to itself; it is in one cluster. Activities taken one by one come to the cluster of the option most distant in time or start one; then clusters whose neighbours on one side are all in clusters are merged with the most distant of these until none is left to merge. The graph has the other activities and the clusters, named after their members, as nodes; the edge between two of these carries the sum over all edges between members, and is there exactly if there is one; clusters have no edge to themselves. Which activities are in clusters does not depend on hash tables. Not true: that clusters themselves do not depend on hash tables, that members are connected with something, that rare activities with incoming edges are put into clusters, that a cluster has two members.", "quantifier": "all logs, thresholds (ratio at least 0), orders of hash tables", "why_tests_cant": "Which clusters arise depends on the order of hash tables in many places, and merging changes the graph while it is walked.", "anchors": ["src/rust/ficus_backend/src/features/discovery/fuzzy/fuzzy_miner.rs: discover_clusters, find_initial_clusters, merge_clusters, merge_nodes", "src/rust/ficus_backend/src/utils/graph/graph_clusters.rs: merge_nodes_into_one", "src/rust/ficus_backend/src/utils/sets/one_set.rs"]}
{"id": "C83", "title": "PNML files of Petri nets", "statement": "The pipeline part SerializePetriNet (serialize_to_pnml_file) writes one well formed element with exactly one element for each place, each transition (with its data as text) and each arc, places and transitions sorted by name, arcs by transition, direction and id. Source and target of arcs are ids of the file. It panics exactly when an arc has a place which is not in the net. With numbers as ids all ids differ; with names as ids those of places and transitions differ exactly when all their names do. Nets with the same file have the same places, transitions, data and arcs by id. The file does not depend on the order of hash tables if names of places and of transitions are distinct. Not true: that it does not depend on it otherwise; that ids differ with names as ids, also for arcs if all names differ; that names of places can be told from a file with numbers. Markings are not written.", "quantifier": "all nets, data, both kinds of ids, all orders of hash tables", "why_tests_cant": "Names with markup or braces, equal names and hash orders are endless; a file may look fine and still merge two nodes.", "anchors": ["src/rust/ficus_backend/src/features/discovery/petri_net/pnml_serialization.rs: serialize_to_pnml_file, serialize_to_pnml", "src/rust/ficus_backend/src/utils/xml_utils.rs: StartEndElementCookie", "src/rust/ficus_backend/src/pipelines/discovery_parts.rs: serialize_petri_net"]}
{"id": "C84", "title": "BXES files of event logs", "statement": "A log written by WriteLogToBxes can be read by ReadLogFromBxes. Classifiers, extensions, names and order of properties, names of events, traces and keys of globals arrive as they are; dates arrive as their nanoseconds since 1970; time stamps arrive as dates; all other values arrive as they are, lifecycles included; attributes of events arrive unless they equal what the globals of events say about their key, and then they are gone. Nothing changes if there are no such attributes and no time stamps and dates are whole nanoseconds. Writing succeeds exactly when globals are for events, traces or the log and all dates which are written fit into 64 bit of nanoseconds; otherwise it is an error for a scope or a panic for a date. The file does not depend on the order of hash tables, keys of events are sorted in it, and each trace is a variant of count 1. A file is read exactly when names and keys are strings and no value is an artifact, drivers or a software event type; each variant gives one trace. Not true: that attributes of events arrive; that time stamps stay time stamps; that a variant gives as many traces as its count; that what has been through a file once stays as it is.", "quantifier": "all logs and files, all dates and floats and their equalities, all orders of hash tables", "why_tests_cant": "Logs are endless, and losses depend on equality of attributes with globals, on kinds of values and on dates far away.", "anchors": ["src/rust/ficus_backend/src/event_log/bxes/xes_to_bxes_converter.rs: write_event_log_to_bxes", "src/rust/ficus_backend/src/event_log/bxes/bxes_to_xes_converter.rs: read_bxes_into_xes_log", "src/rust/ficus_backend/src/event_log/bxes/conversions.rs", "src/rust/ficus_backend/src/pipelines/xes_parts.rs: read_log_from_bxes, write_log_to_bxes"]}
{"id": "C85", "title": "Relations of the alpha++ NFC algorithm", "statement": "AlphaPlusNfcRelationsProvider of a log is made exactly when no trace has less than two events, otherwise it is a panic. Then causal_relation holds for pairs added by hand and for names which directly follow each other (names ignored taken out) in one way only or with one of them around the other; parallel_relation for names following each other in both ways with none around the other; unrelated_relation for names following each other in no way; left_triangle_relation and right_triangle_relation for unrelated names with a common cause or effect; right_double_arrow_relation (uncached) exactly if the second name does not follow the first directly and somewhere comes after it with neither between, something known between and nothing known between which is in a triangle with the first. All this does not depend on the order of hash tables. Without additions names are related in exactly one way. An answer once cached stays. Not true: that of two names at most one is a cause of the other; that causes are not unrelated, once pairs were added; that cached answers are those of the present relations.", "quantifier": "all logs, ignored names, added pairs, caches, orders of hash tables", "why_tests_cant": "The relation speaks about all pairs of positions of all traces, and stale answers need a certain order of questions and additions.", "anchors": ["src/rust/ficus_backend/src/features/discovery/alpha/providers/alpha_plus_nfc_provider.rs: AlphaPlusNfcRelationsProvider", "src/rust/ficus_backend/src/features/discovery/alpha/providers/relations_cache.rs: RelationsCache"]}
{"id": "C86", "title": "Reduction of the third implicit dependency", "statement": "construct_w3_transitive_closure_cache ends exactly if for all classes of the relations which are not directly related the second can be reached from the first or no walk from the first goes on for ever; then the cache has exactly the pairs of classes which are not directly related and connected by a walk. eliminate_w3_relations_by_rule_2 with this cache removes nothing, whatever the relations are. Not true: that the search always ends; that a relation implied by two others is removed.", "quantifier": "all sets of relations, all orders of hash tables, any number of steps", "why_tests_cant": "Whether the search ends depends on cycles in sets of relations of any size, and that nothing is ever removed cannot be seen from samples.", "anchors": ["src/rust/ficus_backend/src/features/discovery/alpha/alpha_plus_plus_nfc/alpha_plus_plus_nfc.rs: construct_w3_transitive_closure_cache, eliminate_w3_relations_by_rule_2"]}
{"id": "C87", "title": "Position entropies of the backend", "statement": "calculate_pos_entropy_for_event_fast and calculate_pos_entropy_for_event give the same for every event which is not ignored: the last step applied to the numbers, for each position, of traces which have the event there after ignored events were dropped, and to the number of traces in which something is left. Nothing panics unless the log has no traces and no set of ignored events is given. calculate_pos_entropies_fast and calculate_pos_entropies never panic and give the same table with one entry for each event not ignored, the table of the Python library, for any order of hash tables. With two traces or more all entries lie between 0 (each position has the event in no trace or in all of them) and 1 (no position has it in two traces). Not true: that the functions agree, or do not panic, for an ignored event.", "quantifier": "all logs, events, sets of ignored events, orders of hash tables", "why_tests_cant": "Tests compare the functions for some logs; agreement for all logs, orders and sets of ignored events, and the range of the values, speak about inputs of any size.", "anchors": ["src/rust/ficus_backend/src/features/analysis/entropy/pos_entropy_fast.rs: calculate_pos_entropies_fast, calculate_pos_entropy_for_event_fast", "src/rust/ficus_backend/src/features/analysis/entropy/pos_entropy.rs: calculate_pos_entropies, calculate_pos_entropy_for_event", "src/rust/ficus_backend/src/features/analysis/entropy/shared.rs: calculate_max_vector_length, calculate_pos_entropy, calculate_entropies"]}
{"id": "C88", "title": "Directly follows entropies of the backend", "statement": "calculate_default_dfg_entropy and calculate_laplace_dfg_entropy give one entry for each event which is not ignored: the entropy of its followers (with an artificial end) plus that of its predecessors (with an artificial start), where the share of a pair is its count over the count of the event, or smoothed with alpha = 1 / count. The tables are those of the Python library, whatever the order of hash tables. Entries lie between 0 and twice the logarithm of one more than the number of events; without smoothing 0 is reached exactly by events with one follower and one predecessor, with smoothing never.", "quantifier": "all logs, sets of ignored events, orders of hash tables", "why_tests_cant": "The order of hash tables changes from run to run and two programs in two languages have to agree for all logs.", "anchors": ["src/rust/ficus_backend/src/features/analysis/entropy/dfg_entropy.rs: calculate_default_dfg_entropy, calculate_laplace_dfg_entropy"]}
{"id": "C89", "title": "Interval tree: building and searching by points and ranges", "statement": "IntervalTree::new panics for no intervals, never ends if some interval has its right end before its left one, and otherwise ends with a tree. search_overlaps_for_point then gives exactly the intervals the point is in, each once, by ascending left ends, and does not panic; search_overlaps_for_interval exactly those some element of the range is in, which are those with a common point if the range has both its ends. Not true: that ranges without their end, as in the tests, find all intervals with a common point.", "quantifier": "all lists of intervals, points, ranges, orders of hash tables, searches before", "why_tests_cant": "The tests search a few random trees; that no interval is lost in any tree, and that building does not end for some lists, speaks of inputs of any size.", "anchors": ["src/rust/ficus_backend/src/utils/interval_tree/interval_tree.rs: IntervalTree::new, search_overlaps_for_point, search_overlaps_for_interval, search_internal", "src/rust/ficus_backend/src/utils/interval_tree/interval.rs: Interval::contains"]}
{"id": "C90", "title": "Interval tree: envelopes", "statement": "search_envelopes never panics, whatever place binary search gives among equal boundaries, and gives only intervals of the tree inside the given one, each once, by ascending left ends, and all of these that begin before the end of the given one; so exactly those inside if no interval is a single point. For a single point nothing is found. Not true: that all intervals inside are found (a single point at the end can be left out). Searching sorts the boundaries of the tree, which changes no later search.", "quantifier": "all lists of intervals, given intervals, orders of hash tables, places of binary search, searches before", "why_tests_cant": "The place binary search gives among equal elements is not fixed by the standard library; tests see one choice.", "anchors": ["src/rust/ficus_backend/src/utils/interval_tree/interval_tree.rs: search_envelopes"]}
{"id": "C91", "title": "User data, its keys and its clones", "statement": "Keys from different calls of DefaultKey::new are different before 2^64 of them are made, whatever their types and names, and clones of keys are equal to them. A program that makes, clones, writes, reads and changes user data panics exactly if it reads or writes a value as one of another type; otherwise reading gives the last value put for the key, or written to the same value through any clone that shares it, and len is the number of keys held. With the functions for keys of a type and the keys of the program it never panics. Put and remove change nothing in other user data or other keys; a clone agrees with the original at first. Not true: that a clone is isolated (what is written through concrete_mut in the clone is seen in the original), that get never panics after put_any, that keys differ for ever.", "quantifier": "all programs of these operations over any number of user data and keys", "why_tests_cant": "Sharing shows only in programs with clones and later writes; tests check single puts and gets.", "anchors": ["src/rust/ficus_backend/src/utils/user_data/keys.rs: DefaultKey::new, Clone, PartialEq", "src/rust/ficus_backend/src/utils/user_data/user_data.rs: UserDataImpl"]}
{"id": "C92", "title": "alpha++ NFC: the search for triples, pairs and extensions", "statement": "In discover_petri_net_alpha_plus_plus_nfc the searches for triples around names which follow themselves, for pairs of sets of w3 and for extensions of alpha sets end for every log without traces of less than two events, whatever order hash tables have. What they find fits and no two of the found triples or pairs could be united. If different triples (pairs, extensions) which fit are not equal by what is hashed, exactly the largest ones are found. Not true: that the largest ones are always found; hashing has nothing between names, so of ({x},{y},{zc}) and ({x},{yz},{c}) one is lost.", "quantifier": "all logs, names, relations w1, w2, w3, answers of the cache, orders of hash tables", "why_tests_cant": "Tests compare the nets of some logs with short names; that the searches end and lose nothing but what collides speaks of all logs.", "anchors": ["src/rust/ficus_backend/src/features/discovery/alpha/alpha_plus_plus_nfc/alpha_plus_plus_nfc.rs: discover_petri_net_alpha_plus_plus_nfc (lines 24-36, 70-121, 141-157)", "src/rust/ficus_backend/src/features/discovery/alpha/alpha_plus_plus_nfc/alpha_plus_plus_nfc_triple.rs: try_new, try_merge, valid, PartialEq", "src/rust/ficus_backend/src/features/discovery/alpha/alpha_plus_plus_nfc/extended_alpha_set.rs: valid, merge, PartialEq", "src/rust/ficus_backend/src/features/discovery/alpha/alpha_plus_plus_nfc/w3_pair.rs: valid, merge"]}
{"id": "C93", "title": "alpha++ NFC: what the implied relations say", "statement": "For every log without traces of less than two events, every net in which no two transitions have the same name, and any answers of the relation \"some time after\": w1_relation holds for two names exactly if the first does not directly follow, and some name takes from two places, one of which only the first name feeds, and the other of which is drained by the second and fed by nothing tied to the first; w2_relation holds exactly if one of its two parts does, which are each other's mirror image; w3_relation holds exactly if there are two alternatives of the two names which share places with them and exclude them. eliminate_w2_relations_by_rule_1 leaves exactly the pairs which do not follow from a step of w2 and a step ahead. w3_relation panics if a name has no transition. Not true: that of pairs of w2 which follow from each other one is left; none is.", "quantifier": "all logs, ignored names, added relations, nets, answers of the cache, orders of hash tables", "why_tests_cant": "Tests compare the nets of some logs; what the relations say of every pair of names in every net is not visible there.", "anchors": ["src/rust/ficus_backend/src/features/discovery/alpha/providers/alpha_plus_nfc_provider.rs: w1_relation, w2_relation, w21_relation, w22_relation, w3_relation (lines 192-481)", "src/rust/ficus_backend/src/features/discovery/alpha/alpha_plus_plus_nfc/alpha_plus_plus_nfc.rs: eliminate_w2_relations_by_rule_1 (lines 213-235)"]}
{"id": "C94", "title": "alpha++ NFC: the net", "statement": "If discover_petri_net_alpha_plus_plus_nfc gives a net, the net has exactly one visible transition for each name of the log, and exactly one place for each of some pairs of sets of names of the log, fed by the first and drained by the second set, with no other places or arcs; no two pairs have the same list of names. Each pair comes from a triple which fits or is not the pair of outer sets of a largest triple; if texts of triples differ, each largest triple has a place, or one with the same list of names. A trace of less than two events is a panic. The net has no initial and no final marking. Not true: that the net can be replayed with its own log; replay gives None.", "quantifier": "all logs, counters of identifiers, answers of the relation some time after, orders of hash tables, runs which end", "why_tests_cant": "Tests compare names of places and transitions for some logs; arcs, identifiers and markings of nets of all logs are not compared.", "anchors": ["src/rust/ficus_backend/src/features/discovery/alpha/alpha_plus_plus_nfc/alpha_plus_plus_nfc.rs: discover_petri_net_alpha_plus_plus_nfc (lines 18-211)", "src/rust/ficus_backend/src/features/discovery/petri_net/replay.rs: replay_petri_net"]}
{"id": "C95", "title": "alpha sharp: relations, tuples and lines", "statement": "For a log without traces of less than two events: causal, parallel, advanced ordering, real and redundant relations of AlphaSharpRelationsProvider and discover_petri_net_alpha_sharp say what they mean in terms of the log; the first tuples are exactly those of pairs which hide something and are not known from two other pairs, with any two names which are not parallel, up to tuples with the same text; if the search ends, every tuple left fits or has the same name twice in each pair, has names of the log, no two tuples have the same text and no two could be united; if no two first tuples can be united they are the result after one round. What is printed is the pairs, the first tuples and the tuples left. A trace of less than two events is a panic. Not true: that every tuple left fits (clone takes the first set of each pair twice); that a log with a hidden pair has one which is not redundant.", "quantifier": "all logs, orders of hash tables, searches which end", "why_tests_cant": "There are no tests of alpha sharp; the result is only printed, and relations and redundancy depend on whole logs.", "anchors": ["src/rust/ficus_backend/src/features/discovery/alpha/alpha_sharp.rs: discover_petri_net_alpha_sharp", "src/rust/ficus_backend/src/features/discovery/alpha/providers/alpha_sharp_provider.rs: AlphaSharpRelationsProvider", "src/rust/ficus_backend/src/features/discovery/alpha/utils.rs: maximize"]}
{"id": "C96", "title": "iterators over logs, simple logs and default graphs", "statement": "TraceIterator: in a trace which does not change, next gives the result for the event at the place reached by the steps forward and back before, which is never before the start or after the end; after the end it is None each time; after k next and j step_back calls the next result is that of event k - j. While events are only added, each is given once and in order, even after None. LogIterator gives an iterator for each trace in order, so a log is gone over completely. SimpleEventLog::new has the names it was made from (to_raw_vector gives them back), and times which start at the first date and go up by one second; set_name and set_timestamp leave the other part. to_default_graph keeps ids, nodes and edges, and has the text of each data, none where there was none; a graph of texts stays as it is. Not true: that an event which stays in a trace is given when others are removed while going over it.", "quantifier": "all traces and logs, all sequences of calls and changes, all graphs", "why_tests_cant": "Tests go over a few fixed logs to the end; none steps back at the ends or changes a trace while an iterator is used.", "anchors": ["src/rust/ficus_backend/src/event_log/core/log_iterator.rs: LogIterator, TraceIterator", "src/rust/ficus_backend/src/event_log/simple/simple_event_log.rs: SimpleEventLog, SimpleTrace, SimpleEvent", "src/rust/ficus_backend/src/utils/graph/graph_conversions.rs: to_default_graph"]}
{"id": "C97", "title": "building Petri nets and asking them", "statement": "For a net built from PetriNet::empty by any calls of add_place, add_transition, connect_place_to_transition and connect_transition_to_place: a transition has an arc for each call which connected it, in the order of the calls; get_incoming_transitions and get_outgoing_transitions of a place give the transitions (as they are now) it was connected from and to, once for each call and in their order, and panic exactly for places which were never connected; arc finds each arc of the net by its id with its transition and nothing else, whatever the order of the table; find_all_transitions_by_name gives all transitions with the name, or None if there are none; a call panics exactly when it connects a transition which is not in the net. Not true: that the transitions of a place can be asked for after delete_transition of one of them (the table keeps the id: a panic); that the place of an arc is in the net (it is not checked).", "quantifier": "all sequences of calls, all start values of the counter, all orders of hash tables", "why_tests_cant": "Tests compare a few discovered nets; none asks for the neighbours of a place after each sequence of calls or deletes transitions.", "anchors": ["src/rust/ficus_backend/src/features/discovery/petri_net/petri_net.rs: PetriNet", "src/rust/ficus_backend/src/features/discovery/petri_net/transition.rs: Transition", "src/rust/ficus_backend/src/features/discovery/petri_net/arc.rs: Arc"]}
