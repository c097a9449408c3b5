# Formal model of Ficus in Rocq/Coq 8.16.1

Code under study: `/repo` (PM-IDE/Ficus), the Python package `src/python/ficus` (legacy library and
gRPC client), and of the Rust backend `src/rust/ficus_backend` what the table below names.  Nothing is executed; the model is written by reading the source, function by function.

## Layout

| files (rocq/theories) | role |
|---|---|
| `Py.v`, `PyFacts.v` | Python values used everywhere (str, dict, exceptions, loops) and facts about them |
| `*Model.v` | definitions only, one Gallina function per source function, each with a comment citing file and lines and naming simplifications |
| `*Spec.v`  | small independent vocabulary used in theorem statements (no model helpers) |
| `*Proofs.v`, `*Facts.v` | lemmas |
| `*Props.v` | the property theorems, concrete cases (`Example`) meeting the hypotheses, `Print Assumptions` after each theorem |

`properties.jsonl` holds the statements in words, `MANIFEST.json` the theorems of each property,
`seeded/LOG.jsonl` the wrong programs the theorems were tried against.

## Modelling conventions

* Python `str` = list of code points (`list N`), written `pystr`.
* Python `dict` = insertion ordered association list with unique keys (order matters for `max`, grouping, iteration).
* Exceptions = values of `result` (`Ok v` / `Err kind`) or `option`; loops = structural recursion or fuel, the out-of-fuel outcome
  being a distinct value (`Err Diverges`, `None`) excluded by the theorems.
* Objects with identity (copy/deepcopy, context sharing, in-place mutation) = explicit heap of cells; elsewhere values.
* Floats: exact rationals or reals (entropy, ratios), abstract (position entropy), or `SpecFloat` binary32/64 (wire format).
  int = Z/N/nat (Python ints are unbounded).
* External libraries (XML parser, suffix tree, interval tree, uuid, random, pm4py, grpc transport) are section variables of
  closed sections, so theorems are closed statements quantified over their behaviour, with explicit hypotheses.
* A theorem whose name ends in `_refuted` exhibits inputs on which a statement one would expect is false of the model; the
  property text says what is expected and what is true instead.

## Trusted base

1. Coq 8.16.1 kernel (and `vm_compute` for examples and witnesses).
2. What `Print Assumptions` prints for each theorem in `*Props.v` (700 theorems): "Closed under the global context" for all but eleven.
   `C17_default_entropy`, `C17_laplace_entropy`, `C17_default_entropy_formula`, `C17_laplace_entropy_formula`,
   `C17_sum_and_average`, `C19_default_direct`, `C19_laplace_zero_deletes_everything`, `C20_default_indirect`,
   `C20_small_log_never_filtered`, `C20_comparisons` and `C59_cosine` speak about real numbers and print the axioms of the standard library's reals
   (`C20_comparisons` and `C59_cosine` the first three only):
   `ClassicalDedekindReals.sig_not_dec`, `ClassicalDedekindReals.sig_forall_dec`,
   `FunctionalExtensionality.functional_extensionality_dep`, `Classical_Prop.classic`.
3. The fidelity of the model to the cited source lines, including the simplifications named in the comments and below.

No axioms of our own, no functors/module types, no plugins, no admitted proofs.

## What is modelled

Paths below `src/python/ficus`.

| source | lines | model |
|---|---|---|
| legacy/util.py | 6-71 hashes | HashModel |
| | 74-124 colour providers | ColorModel |
| | 132-137 copying | HeapModel |
| legacy/log/event_log.py | all | LogModel (values), EqModel (equality, hash), HeapModel (identity) |
| legacy/log/functions.py | 11-158, 215-292 XES | XesModel |
| | 161-212 text format | TextModel |
| legacy/mutations/event_log_mutations.py | all | MutModel (values), HMutModel (identity) |
| legacy/filtering/event_log_filters.py | all | FilterModel |
| legacy/analysis/event_log_info.py | all | InfoModel |
| legacy/analysis/event_log_split.py | all | SplitModel |
| legacy/analysis/event_log_analysis_entropy.py | 15-113 | EntropyModel |
| | 116-284 | PosModel |
| legacy/analysis/event_log_analysis.py | 107-350 diagrams | ColorModel, DrawModel |
| legacy/analysis/event_log_analysis_canvas.py | 61-105 rectangles | DrawModel |
| | 108-123 legend | ShowModel |
| legacy/analysis/event_log_analysis.py | 38-105 histograms | ShowModel |
| legacy/pipelines/analysis/analysis_parts.py | 38-45, 110-167 | ShowModel |
| legacy/log/functions.py | 295-299 save to XES | ShowModel |
| legacy/analysis/patterns/event_log_patterns.py | 18-162 | PatternModel |
| | 164-246 | TreeModel, HighModel |
| | 249-288 | NearModel |
| | 298-414 | ActModel |
| | 417-561, 586-710 | ActLogModel |
| | 564-583 | ClassModel |
| | 713-736 | TileModel |
| legacy/analysis/patterns/util.py | 43-86, 105-184 | PatternModel, HighModel, ActModel, ActLogModel |
| legacy/analysis/patterns/patterns_models.py | all | PatternModel, TreeModel, ActModel, ActLogModel |
| legacy/analysis/patterns/patterns_graphs.py | 75-154, 240-292 | DrawModel |
| legacy/discovery/petri_net.py, graph.py | data, 80-125, 24-42 drawing calls | DecodeModel |
| legacy/pipelines/pipelines.py | all | PipeModel |
| legacy/pipelines/contexts/*.py | all | CtxModel |
| legacy/pipelines/mutations/mutations_parts.py | log-changing parts | MutModel, HMutModel |
| legacy/pipelines/filtering/filter_parts.py | log-filtering parts | HMutModel, FilterModel, SplitModel |
| legacy/pipelines/analysis/high_level.py | all but ExecuteWithEachActivityLog | HighModel |
| legacy/pipelines/analysis/patterns/patterns_parts.py | the discovering and log-creating parts | HighModel, ActLogModel |
| grpc_pipelines/constants.py | all | ConstModel (generated from the text) |
| grpc_pipelines/grpc_pipelines.py, context_values.py and all `*_parts.py` | all but what only draws | ClientModel, WireModel, DecodeModel |
| protos/*.proto | message shapes, scalar checks | WireModel |
| legacy/analysis/patterns/patterns_graphs.py | 164-236 | GraphModel |
| legacy/pipelines/analysis/patterns/patterns_graph_parts.py | 17-159 | GraphModel |
| legacy/analysis/event_log_analysis.py | 383-539 scatter plots | ClusterModel |
| legacy/pipelines/analysis/patterns/patterns_parts.py | 149-188, 329-342, 453-547 reports | ReportModel |
| src/rust/ficus_backend/src | part and key tables, reading of requests, configuration keys read, executor's messages, writing of context values | BackendModel |
| | features/clustering: merging, labels, colours, grid search | ClusterModel |
| | features/clustering: datasets and scaling | DatasetModel |
| | utils/distance | DistModel |
| | features/discovery/petri_net: replay, annotations, initial marking; pipelines/annotations_parts.rs | ReplayModel |
| | features/analysis: event_log_info.rs, directly_follows_graph.rs; utils/graph/graph.rs | RInfoModel |
| | features/discovery/alpha: alpha.rs, alpha_set.rs, utils.rs, alpha_provider.rs, alpha_plus_provider.rs; utils/sets/two_sets.rs; pipelines/discovery_parts.rs 19-68 | AlphaModel |
| | utils/suffix_tree, utils/hash_map_utils.rs 15-58, features/analysis/patterns/repeats.rs | SufModel |
| | utils/hash_utils.rs, features/analysis/patterns/tandem_arrays.rs, repeat_sets.rs, activity_instances.rs 29-309 and 425-474 | RActModel |
| | activity_instances.rs 311-423 and 476-717, pipelines/activities_parts.rs 430-447 | RLogModel |
| | pipelines/activities_parts.rs 80-428, patterns_parts.rs 43-138, util_parts.rs 26-34; event_log/core/event/event_hasher.rs | RPipeModel |
| | pipelines/filtering_parts.rs 20-67, mutations_parts.rs 9-37, util_parts.rs 57-100, activities_parts.rs 448-487; features/mutations/{filtering,mutations,split}.rs; event_log/core/trace/traces_holder.rs; event_log/core/event/events_holder.rs | RFiltModel |
| | legacy/log/pm4py_converters.py, legacy/pipelines/start/start_parts.py, src/python/infra/generate_models.py 31-36 and 52-66 | ConvModel |
| | grpc/backend_service.rs 133-203 and 292-304, logs_handler.rs: many executions, their channels and clients | SvcModel |
| | event_log/xes/reader, event_log/xes/writer, utils/xml_utils.rs: the backend's reader and writer of XES files, over the events of quick_xml | RXesModel |
| | features/discovery/heuristic, utils/sets/one_set.rs, pipelines/discovery_parts.rs 96-118 | HeurModel |
| legacy/log/functions.py with event_log/xes | the text of XES files between client and backend: ET.tostring and ET.parse against quick_xml | CrossModel |
| features/discovery/fuzzy, utils/graph (graph.rs, graph_clusters.rs), utils/sets/one_set.rs, discovery_parts.rs 120-146 | the fuzzy miner | FuzzyModel |
| petri_net/pnml_serialization.rs, utils/xml_utils.rs, discovery_parts.rs 32-44 | PNML files as tags and texts | PnmlModel |
| event_log/bxes, event/lifecycle, xes_parts.rs 41-68 | writing and reading of BXES files; files are values of BxesEventLog, the bxes library is not modelled | BxesModel |
| alpha/providers/alpha_plus_nfc_provider.rs 24-190, 483-485, relations_cache.rs, alpha_plus_plus_nfc.rs 138-139, 237-305 | relations, caches and the closure of the alpha++ NFC algorithm (w1, w2, w3 and the search for places: NfcNetModel) | NfcModel |
| features/analysis/entropy/{shared,pos_entropy,pos_entropy_fast,dfg_entropy}.rs | entropies of the events of a log in the backend; f64 as reals, x / 0 is not modelled | REntModel |
| utils/interval_tree/{interval,node,interval_tree}.rs | interval tree over integers; loops with fuel, HashSet walked in any order, binary_search gives any allowed place | ITreeModel |
| utils/user_data/{keys,user_data}.rs | keys and user data with values shared by clones; places in a heap, without UserDataHolder and kept references | UDataModel |
| alpha/alpha_plus_plus_nfc/{alpha_plus_plus_nfc,alpha_plus_plus_nfc_triple,extended_alpha_set,w3_pair}.rs, w1, w2, w3 of alpha/providers/alpha_plus_nfc_provider.rs | triples, extensions and pairs of the alpha++ NFC algorithm, its implied relations and its net; answers of right_double_arrow_relation are any function, the caches of w1, w2 and w3 are left out | NfcNetModel |
| alpha/alpha_sharp.rs, alpha/providers/alpha_sharp_provider.rs, maximize of alpha/utils.rs with a clone which differs | the alpha sharp algorithm: relations, redundancy, tuples, their search and the printed lines | SharpModel |
| event_log/core/log_iterator.rs, event_log/simple/simple_event_log.rs, utils/graph/graph_conversions.rs | iterators over logs and traces (with changes while they run), logs from names, graphs with texts | IterModel |
| discovery/petri_net/petri_net.rs (with places_to_transitions), transition.rs, arc.rs | building a Petri net by calls, and asking it for neighbours of places, arcs and transitions by name | PnetModel |

## What is not modelled

* Rounding of floats in the entropies and ratios; numpy/scipy expressions behind the position entropy (a parameter).
* matplotlib, graphviz, ipycanvas, pandas and dimension reduction: a diagram is the list of rectangles or calls made.
* discovery parts calling pm4py (legacy/pipelines/discovery), and pm4py itself.
* Saving of pictures.  Files are a dictionary from paths to texts.
* graphviz splits names at ':' into node and port; the model records the call only.
* The suffix tree and interval tree libraries used from Python: what they return is a parameter (`source`, `maximal_repeats`), or their meaning (find_all, envelop) is taken.
* The byte encodings of XML and protobuf, HTTP/2. Threads are interleavings of steps (SvcModel); a step that holds the lock of the table of contexts is one step, and a lock poisoned by a panic is left out.
* XML files in the backend are the events quick_xml 0.29 gives for them (attribute values unescaped only where the code asks for it, end names checked, Eof repeated); chrono's to_rfc3339 and parse_from_rfc3339 are parameters, and theorems that speak of dates that are not read back have that as a hypothesis.
* That the search of the alpha sharp algorithm ends; f64 in the fuzzy miner (rationals, no rounding or NaN but where a share has none); collisions of 64 bit hashes; the clustering algorithms of linfa and scikit-learn (any labelling, any score);
  tests, `infra`, `setup.py`.

## Plan per property

* **C01** Removing an event name removes exactly that name. Model: `MutModel`. Plan: events as payload dicts; removal stated with filter-like membership, order (subsequence) and counts; a nameless event gives KeyError. 4 theorems.
* **C02** Removal algebra. Model: `MutModel`. Plan: removal of lists and predicates as composition; idempotence and commutation; filter applied twice. 6 theorems.
* **C03** Trace length filter is exact. Model: `MutModel`. Plan: traces kept are exactly those with enough events; name preprocessing and class extraction are maps. 3 theorems.
* **C04** Text log format round trip. Model: `TextModel`. Plan: split/join on code points; induction over the joined text; the exact condition on separators; two failing separators as refutations. 10 theorems, refuted: `long_separator_refuted`, `empty_trace_refuted`.
* **C05** XES round trip of traces, events and typed attributes. Model: `XesModel`. Plan: reader and writer on element trees; round trip up to string-typed attributes, exact round trip for typed logs; int text. 6 theorems.
* **C06** XES round trip failures are exactly known. Model: `XesModel`. Plan: each thing the round trip loses, exactly; faithful round trip refuted. 5 theorems, refuted: `faithful_refuted`.
* **C07** Equality and hash depend only on content. Model: `EqModel`, `HashModel`. Plan: polynomial hash over N; equal content gives equal hash and equality; equality implies same content refuted (collisions, ignored parts). 8 theorems, refuted: `equal_implies_same_refuted`, `name_collision_refuted`.
* **C08** Copy and deepcopy isolation. Model: `HeapModel`. Plan: heap of cells; copies reach disjoint cells; writes through one side leave the other; shallow copies refuted; deepcopy drops things (refuted). 6 theorems, refuted: `copy_isolated_refuted`, `deepcopy_same_content_refuted`.
* **C09** Splitting a log into groups loses and duplicates nothing. Model: `SplitModel`. Plan: groups are a permutation of the traces. 1 theorems.
* **C10** Groups are exactly the trace variants (when name hashes do not collide). Model: `SplitModel`. Plan: same group iff same name hashes; iff same variant without collisions; collision witness. 3 theorems, refuted: `variants_refuted`.
* **C11** Variant filter keeps one representative of each variant. Model: `SplitModel`. Plan: first trace of every variant kept; collision witness. 2 theorems, refuted: `variant_filter_refuted`.
* **C12** Directly-follows counts are exact. Model: `InfoModel`. Plan: pair counts against occurrence counting in the concatenation-free list of adjacent pairs. 2 theorems.
* **C13** Flow conservation in the directly-follows relation. Model: `InfoModel`. Plan: conservation per name; with fake start/end totals; unguarded names refuted. 3 theorems, refuted: `fake_totals_unguarded_refuted`.
* **C14** Event counts and follower sets. Model: `InfoModel`. Plan: counts and follower sets against In/count. 4 theorems.
* **C15** find_all_events_names is universal quantification per name. Model: `InfoModel`. Plan: universal quantification per name. 1 theorems.
* **C16** Follow/precede ratios are probability distributions. Model: `InfoModel`, `EntropyModel`. Plan: ratios as rationals: non-negative, sum 1. 2 theorems.
* **C17** Entropy is bounded and characterises determinism. Model: `EntropyModel`. Plan: Coq reals; 0 <= H <= 1, zero iff deterministic, closed formulas. 5 theorems.
* **C18** Fast and slow position entropy agree. Model: `PosModel`. Plan: count vectors of both algorithms equal; ignored events refuted. 5 theorems, refuted: `ignored_event_refuted`.
* **C19** Direct entropy filters: termination, threshold and untouchables. Model: `FilterModel`, `EntropyModel`. Plan: loop over an arbitrary metric, measure = number of names; bridge from names to logs. 7 theorems, refuted: `zero_limit_refuted`.
* **C20** Indirect entropy filters. Model: `FilterModel`, `EntropyModel`. Plan: as C19 with the indirect rule; protected names can make the till-end variant run for ever; top percent above one refuted. 8 theorems, refuted: `top_percent_above_one_refuted`.
* **C21** Tandem arrays are genuine. Model: `PatternModel`. Plan: exact set of tandem arrays by slices; left maximality and completeness refuted. 4 theorems, refuted: `left_maximal_refuted`, `all_repetitions_found_refuted`.
* **C22** Primitive tandem arrays. Model: `PatternModel`. Plan: primitive arrays exactly; the two directions of "drops only powers" refuted. 4 theorems, refuted: `drops_only_powers_refuted`, `kept_block_with_period_one_refuted`.
* **C23** Super-maximal repeats are an antichain of the maximal repeats. Model: `PatternModel`. Plan: super-maximal = no other maximal repeat contains it; antichain; cover. 4 theorems.
* **C24** Repeat sets: one per distinct set of event classes. Model: `PatternModel`. Plan: one repeat set per set of classes (hash collisions named). 3 theorems.
* **C25** The activity tree is a proper inclusion forest over all repeat sets. Model: `TreeModel`. Plan: arena of nodes; permutation, smallest strict superset as parent, roots maximal. 5 theorems, refuted: `equal_sets_refuted`.
* **C26** Activity instances are disjoint, ordered and inside the trace. Model: `ActModel`. Plan: greedy segmentation as inductive relation, unique; loop ends. 5 theorems.
* **C27** Instances contain only events of their activity. Model: `ActModel`. Plan: instances inside their activity; narrowing = smallest covering descendant. 3 theorems.
* **C28** No attachable event is left unattached. Model: `ActModel`. Plan: covered iff attachable with the default filter. 1 theorems.
* **C29** Abstracted log can be expanded back. Model: `ActLogModel`. Plan: nested events; expansion commutes with rewriting; lengths. 4 theorems.
* **C30** Undefined activity strategies. Model: `ActLogModel`. Plan: rewritten trace position by position for every strategy. 7 theorems, refuted: `undefined_events_kept_refuted`.
* **C31** Adding activities from unattached events keeps earlier instances. Model: `ActLogModel`. Plan: gaps as maximal uncovered runs; old instances a subsequence. 6 theorems, refuted: `full_fill_ordered_refuted`.
* **C32** Underlying events are expanded completely and counted exactly. Model: `ActLogModel`. Plan: expansion as inductive relation; queue loops visit a permutation. 7 theorems.
* **C33** Pattern tiling of a trace. Model: `TileModel`. Plan: tiling of the trace by pieces; pieces need not be patterns (refuted). 6 theorems, refuted: `contains_patterns_refuted`.
* **C34** Grouping activities by level and size. Model: `ActLogModel`. Plan: grouping by level and size. 4 theorems.
* **C35** Merging all traces into one. Model: `SplitModel`. Plan: fresh names as a stream of uuids. 1 theorems.
* **C36** Per-activity logs. Model: `ActLogModel`. Plan: per-activity logs against a flat_map specification. 5 theorems.
* **C37** Pipelines are sequential composition. Model: `PipeModel`. Plan: pipelines on the heap of contexts; sequential composition; splitting a pipeline resets colours once more (refuted). 5 theorems, refuted: `split_refuted`.
* **C38** Isolation of pipeline branches. Model: `PipeModel`, `CtxModel`. Plan: branches confined to their context cells; shared log refuted. 6 theorems, refuted: `shared_log_refuted`.
* **C39** Context is a faithful key/value store. Model: `CtxModel`. Plan: contexts as stores with the key list. 2 theorems.
* **C40** Which parts keep the context. Model: `HMutModel`. Plan: which parts return the same context object, which replace the log. 10 theorems.
* **C41** Colours are unique between resets and stable per name. Model: `ColorModel`, `DrawModel`. Plan: random source as a stream; uniqueness between resets; stability per name; reset and black refuted. 15 theorems, refuted: `all_after_placements_refuted`, `reset_refuted`, `black_refuted`.
* **C42** gRPC client dispatches every part result to exactly its callback. Model: `ClientModel`. Plan: message streams as lists; exactly the addressed callback runs, in order; the stream determines the outcome. 5 theorems.
* **C43** Every callback part reachable in a pipeline is registered. Model: `ClientModel`. Plan: callbacks registered exactly once per part; parts given to before/after wrappers never sent (refuted). 5 theorems, refuted: `before_after_refuted`.
* **C44** Context values survive the wire format. Model: `WireModel`, `ClientModel`, `DecodeModel`, `BackendModel`. Plan: round trips value by value through both sides; floats by SpecFloat; the losing cases refuted. 15 theorems, refuted: `float_refuted`, `hashes_log_refuted`, `missing_marking_refuted`, `labels_column_refuted`.
* **C45** Artificial start/end events and lifecycle removal. Model: `MutModel`. Plan: exactly one first and last event; lifecycle key removed. 2 theorems.
* **C46** Repeated activity discovery terminates and never grows the log. Model: `HighModel`. Plan: fuel loop; events strictly decrease per round unless it returns; two refutations. 4 theorems, refuted: `any_pipeline_refuted`, `narrow_flag_refuted`.
* **C47** Event class tree layers. Model: `ClassModel`. Plan: layers and links of the class tree. 2 theorems.
* **C48** Near-super-maximal repeats are exactly the repeats with a free occurrence. Model: `NearModel`. Plan: free occurrence characterisation; super-maximal implies near; converse refuted. 4 theorems, refuted: `near_is_super_maximal_refuted`.
* **C49** What filters and mutations share and change. Model: `HMutModel`. Plan: which cells filters and mutations share with their input; sharing refutations. 6 theorems, refuted: `in_place_shared_refuted`, `filtered_independent_refuted`.
* **C50** Activity diagrams and coloured logs cover each trace exactly. Model: `ColorModel`, `DrawModel`. Plan: rectangles cover each trace exactly; colours distinct; legends; placement diagrams. 14 theorems, refuted: `undefined_refuted`, `legend_refuted`, `placement_reset_refuted`, `legend_names_refuted`.
* **C51** The backend understands every part of the client. Model: `BackendModel`, `ClientModel`. Plan: part and key tables of both sides compared; configuration keys read vs sent; the tandem array part panics (refuted). 13 theorems, refuted: `configured_refuted`.
* **C52** Activities on several levels. Model: `HighModel`. Plan: invariant over the list of extractors; refutations on levels and merged traces. 6 theorems, refuted: `classes_on_own_level_refuted`, `merged_trace_promotion_refuted`.
* **C53** Executing a pipeline, from the request to the last callback. Model: `ClientModel`, `BackendModel`, `DecodeModel`. Plan: big-step semantics of a session without wire and uuids; execute and serve composed refine it; sessions are determined. 6 theorems, refuted: `underlying_count_refuted`.
* **C54** Pictures of Petri nets and graphs. Model: `DecodeModel`. Plan: graphviz calls of the picture against the net; same picture implies same net; what is not shown is refuted. 6 theorems, refuted: `markings_refuted`.
* **C55** Reports on activities and marking of events. Model: `ReportModel`. Plan: text written as a function of forest and instances; marking as last covering instance by induction on the list of instances; depth and breadth first loops with a measure of queued nodes; reading back positions by splitting at comma and newline; free positions via C27. 13 theorems, refuted: `saved_names_refuted`.
* **C56** Graphs of activities and event classes. Model: `GraphModel`. Plan: the calls made on the Digraph against the nodes and links of the forest, by induction on trees; names of discovered activities via C24 and splitting at the separator; class trees via the layers of C47; serialization via sorting and splitting. 17 theorems, refuted: `same_name_refuted`, `separator_refuted`, `hashes_refuted`, `class_kept_refuted`, `class_order_refuted`, `levels_hashes_refuted`.
* **C57** Clusters of traces and activities. Model: `ClusterModel`. Plan: colour holders as injective maps kept by every draw; merging by an induction principle of the joining loop; grid search by an invariant of the leader; the picture composed with the wire of C44; linfa and scikit-learn are any labelling and any reduction. 12 theorems, refuted: `dbscan_legend_refuted`, `left_out_untouched_refuted`, `second_clustering_refuted`.
* **C58** Datasets of traces and activities. Model: `DatasetModel`. Plan: counts per class by fold over dictionaries; column scaling as a loop over a flat vector with an invariant on the columns done so far; rows compared through the scaled numbers; activities by induction over the instances with the processed dictionary representing the first instances of the level; the failing second clustering from the nodes that merging makes (C57).. 10 theorems, refuted: `clusters_alike_refuted`.
* **C59** Distances between rows. Model: `DistModel`. Plan: edit scripts as an inductive relation; the matrix as a loop with an invariant on its entries; the code's recursion on reversed prefixes is the minimum of two standard recursions; Lipschitz lemmas make the shortcut for equal symbols optimal; padding via filtering and concatenating scripts. Cosine: Cauchy-Schwarz by the residue of b - t a over R, NaN propagation over SpecFloat. 8 theorems, refuted: `not_levenshtein_refuted`, `triangle_refuted`.
* **C60** What is printed, saved and plotted about a log. Model: `ShowModel`. Plan: counters and groups of a dictionary as functions of the order of first appearance; histogram bins against the groups of C09 and C10; the two nested loops as one map over indices; the legend by its index; paths by the last slash. 15 theorems, refuted: `print_dfg_refuted`, `save_names_refuted`, `traces_histogram_refuted`, `plot_one_log_refuted`, `canvas_legend_refuted`, `save_xes_refuted`.
* **C61** Replay of a log on a Petri net and its annotations. Model: `ReplayModel`. Plan: the firing rule and runs as an inductive relation on functions from places to tokens; dictionaries of the code represent them; induction on fuel over the whole stack for soundness and completeness; ending by well-founded induction on (events left, silent steps), composed over the stack; counts as a counter over the arcs of the fired transitions. 19 theorems, refuted: `ensured_log_replayable_refuted`, `any_net_replays_refuted`, `replay_always_ends_refuted`, `replayed_ends_finally_refuted`, `counts_order_refuted`, `trace_frequency_at_most_one_refuted`.
* **C62** What the backend counts in a log and its directly follows graph. Model: `RInfoModel`. Plan: nested tables as counters of pairs by an invariant of each update; the two loops over the tables as one fold over the list of entries, which is the loop of the Python library up to order (C14); nodes and edges of the graph by invariants over what was done so far. 12 theorems, refuted: `ignored_refuted`, `fake_graph_refuted`, `connected_refuted`.
* **C63** The net which the alpha algorithm of the backend discovers. Model: `AlphaModel`. Plan: one round of maximize as a set equation over the elements; termination by a sum of weights (number of sets + 1) to the power (bound - size), which any round lowers; no maximal pair is missed because the sets within it stay closed under exchanging one name for another one of the pair, so a set that is not the pair itself always finds a partner; the net by an invariant on the places done so far; replay of one sequence by induction with one token. 10 theorems, refuted: `replays_own_log_refuted`, `equality_refuted`.
* **C64** The nets which the alpha+ and alpha++ algorithms of the backend discover. Model: `AlphaModel`. Plan: the generic part of C63 for any relation; loops and triangles by positions in traces; the added transitions by an invariant on what was added so far; alpha++ adds nothing because the sets of places are an antichain; a dead transition by the invariant that its place has no token; names of places as an injective code. 12 theorems, refuted: `every_log_has_a_net_refuted`, `replays_own_log_refuted`, `place_of_loop_refuted`.
* **C65** The suffix tree of the backend finds a word at all its positions. Model: `SufModel`. Plan: the tree as a function from nodes to the words from the root; invariant of the construction: the first k suffixes are leaves, all else branches, links lead to the word without its first element, the active place is the longest end of the text which is there before; split, link and leaf steps keep it; searching by the place which a word leads to. 4 theorems, refuted: `position_in_last_trace_refuted`.
* **C66** The repeats which the backend finds in traces. Model: `SufModel`. Plan: the search by an invariant over visited nodes: the counts of elements before the suffixes below; the conditions of the code as statements about positions; then from nodes to words, since a word with two continuations is a node; textbook notions by extending a word by one element. 13 theorems, refuted: `maximal_repeat_missed_refuted`, `near_repeat_at_start_missed_refuted`, `merged_equal_traces_refuted`.
* **C67** Tandem arrays and repeat sets of the backend. Model: `RActModel`. Plan: the loops over windows as a fold with an invariant: seen hashes and found arrays are those of the windows before; counting repetitions by induction; collisions as hypotheses on the two hashes only where needed; independence of the order of tables by sorting; a refutation for any hash of std by counting. 12 theorems, refuted: `every_class_set_found_refuted`, `all_repetitions_found_refuted`.
* **C68** The forest of repeat sets of the backend. Model: `RActModel`. Plan: invariant of the walk over sets sorted by size: levels are the sets done by size, links exactly those of the code; a set below the largest size looks for its supersets in all levels but the last one. 8 theorems, refuted: `every_contained_set_below_refuted`, `children_largest_refuted`.
* **C69** The activity instances which the backend finds. Model: `RActModel`. Plan: the groups of activities differ from those of the Python library in one doubled entry, which changes no search; then narrowing and the loop over a trace are those of C26-C28; stretches by induction over ordered instances; sorting by start is the only ordered arrangement. 9 theorems, refuted: `up_and_down_differ_refuted`.
* **C70** Logs which the backend makes of activity instances. Model: `RLogModel`. Plan: the walk over ordered instances turned into one statement for each position; events below events by an induction principle with Forall; counts as lengths of the events at the bottom; dictionaries by folding pushes; names by splitting at the first closing bracket. 18 theorems, refuted: `nothing_lost_refuted`, `names_tell_apart_refuted`, `both_ways_agree_refuted`.
* **C71** The parts which look for activities. Model: `RPipeModel`. Plan: each step is a value with a property or a panic that some hash causes; a search is inverted into what it puts into the context; the number of events falls in each round that is not the last, since an instance of n events takes away n-1; induction over the bound. 15 theorems, refuted: `executed_once_refuted`, `levels_of_all_kinds_refuted`.
* **C72** Filters, variants and changes of events in the backend. Model: `RFiltModel`. Plan: removal from the back by induction on the list from its end; groups as a permutation of the traces whose members are classes of a key, refined one place at a time; sorted groupings are unique, so the order of tables does not matter; collisions by counting 2^64+1 names. 24 theorems, refuted: `filter_keeps_other_traces_refuted`, `every_variant_kept_refuted`, `trace_info_right_refuted`.
* **C73** Logs from and to pm4py, and what a pipeline starts with. Model: `ConvModel`. Plan: the nested loops as maps; setting fresh keys one by one rebuilds a dictionary. 6 theorems, refuted: `trace_attributes_survive_refuted`.
* **C74** The patch of generated modules. Model: `ConvModel`. Plan: joining after splitting gives the text; induction over the text from newline to newline; lines are counted without the empty ones, since the patch adds one after each line. 4 theorems, refuted: `every_import_patched_refuted`.
* **C75** Many clients of the backend at once. Model: `SvcModel`, a step relation over executions (messages left, channel of four, client) and the table of contexts; a history is any list of steps that can happen. Plan: invariants over histories, by induction from the end: per execution what was received, queued and left is the stream, or the client hung up and a log message ended it; per table entry an execution past its insertion; a measure for the end; the steps of one execution determine its state. 11 theorems, refuted: `nothing_kept_for_nobody_refuted`.
* **C76** Written and read logs of the backend. Model: `RXesModel`, the reader over the stream of XML events with its fuel, escapes of attribute values, and the writer. How dates and floats are written and read are parameters of the theorems. Plan: the reader is independent of enough fuel, so it has one equation per token; written lists of tags read as folds; folds over distinct keys are lookups; escaping is injective. 7 theorems, refuted: `extensions_refuted`.
* **C77** Files of all kinds. Model: `RXesModel`. Plan: a stack of open elements is kept by each reading loop until the end tag it waits for; a suffix without the end tag of a trace keeps it waiting; prefixes of written files split at the traces. 9 theorems, refuted: `always_ends_refuted`, `never_panics_refuted`.
* **C78** Net of the heuristic miner. Model: `HeurModel` (f64 as exact rationals; orders of hash tables are parameters). Plan: for every largest clique the sets within it always cover it, two of them always merge, and a weight of all sets falls with each round; the net is the list of the transitions seen without arc ids, changed by each step of the construction of a list of blocks. 11 theorems, refuted: `replays_own_log_refuted`, `replay_never_panics_refuted`, `order_refuted`.
* **C79** Logs written by the client and read by the backend. Model: `CrossModel` (ET.tostring as the tags quick_xml reads; names of tags and attributes are plain) with `XesModel` and `RXesModel`. Plan: escapes of ET are undone by the backend's unescape; each element is one step of the backend's item loop; defaults and own values by folding over the dicts. 5 theorems, refuted: `booleans_refuted`, `events_refuted`, `traces_refuted`.
* **C80** Logs written by the backend and read by the client. Model: `CrossModel` (ET.parse over the tags the backend writes, with normalised white space) with `XesModel` and `RXesModel`. Plan: written tags add elements to the innermost open one, so the tree is known; normalised white space commutes with escapes; the client's loops over the children become one fold over the attributes. 7 theorems, refuted: `booleans_refuted`, `ids_refuted`.
* **C81** Edges of the fuzzy miner. Model: `FuzzyModel` (rationals for f64). Plan: the pair loops visit each pair once, so an edge is decided by shares known beforehand; with a ratio of at least 0 no two edges of a conflict both win, so the order does not matter; the filter is a fold for least and greatest use. 7 theorems, refuted: `negative_ratio_refuted`.
* **C82** Clusters of the fuzzy miner. Model: `FuzzyModel`. Plan: an invariant relates the sets of node ids to blocks of names through joining and merging rounds; each round has one block less, so it ends; merging nodes step by step is the quotient of the graph by the blocks. 7 theorems, refuted: `order_refuted`, `connected_refuted`, `incoming_refuted`, `two_members_refuted`.
* **C83** PNML files. Model: `PnmlModel`. Plan: what is written is the tags of a tree, tags determine the tree, and sorting by distinct keys gives one list for all orders. 13 theorems, refuted: `order_refuted`, `names_refuted`, `arc_names_refuted`, `place_names_refuted`.
* **C84** BXES files. Model: `BxesModel`. Plan: each value read back is related to the one written, tables by lookup after putting pairs in one by one, and sorting tables gives one list for all orders. 13 theorems, refuted: `attributes_refuted`, `stamps_refuted`, `counts_refuted`, `twice_refuted`.
* **C85** Relations of the alpha++ NFC algorithm. Model: `NfcModel`. Plan: each relation is compared with a sentence about the log; the scan of a trace keeps what was since the last first name. 8 theorems, refuted: `one_way_refuted`, `added_refuted`, `current_refuted`.
* **C86** Reduction of relations implied by others in the alpha++ NFC algorithm. Model: `NfcModel`. Plan: the queue of the search is split at a class from which the goal can be reached, or all walks from the queue are shorter than the number of classes. 4 theorems, refuted: `ends_refuted`, `reduction_refuted`.
* **C87** Position entropies of the backend. Model: `REntModel`. Plan: both loops add the same hits to the vector, as in C18; ignored positions are sorted, so the order of the set does not matter; the last step is a mean of 1 - ln c / ln n. 7 theorems, refuted: `ignored_event_refuted`.
* **C88** Entropies of the directly follows relation in the backend. Model: `REntModel`. Plan: counts from C62, entropy of a vector does not depend on its order, formulas and bounds from C17. 4 theorems.
* **C89** Interval tree. Model: `ITreeModel`, expectations: `ITreeSpec`. Plan: an invariant of the queue and the nodes gives the intervals below every node; a list with an inverted interval never gets empty, otherwise each step takes at least the median; searching by induction on the number of nodes behind the current one. 5 theorems, refuted: `half_open_ranges_refuted`.
* **C90** Envelopes in an interval tree. Model: `ITreeModel`, expectations: `ITreeSpec`. Plan: facts on any allowed place of binary search in a sorted list, then the searches of C89. 4 theorems, refuted: `all_inside_refuted`.
* **C91** User data. Model: `UDataModel`, expectations: `UDataSpec` (what is held is told from the list of operations, no heap). Plan: the heap is the list of puts, so each place is the put a value comes from; invariant over all programs. 11 theorems, refuted: `keys_differ_refuted`, `put_any_refuted`, `clone_isolated_refuted`.
* **C92** Triples, pairs and extensions of the alpha++ NFC algorithm. Model: `NfcNetModel`, expectations: `NfcNetSpec`. Plan: `NfcNetProofs` proves of the search for largest elements, for any equality by keys, that it ends (the multiset of lengths of keys falls in a lexicographic order) and that, if keys tell elements apart, it finds exactly the largest elements; `NfcNetProofs2`/`3` show its hypotheses for triples, pairs and extensions. 9 theorems, refuted: `triples_refuted`, `pairs_refuted`, `extensions_refuted`.
* **C93** Implied relations of the alpha++ NFC algorithm. Model: `NfcNetModel`, expectations: `NfcRelSpec`, which speaks of names which feed and drain places and of the log. Plan: `NfcRelProofs` turns each loop over places and names into the existential statement of the specification, with what C85 says of the simpler relations. 4 theorems, refuted: `elimination_refuted`.
* **C94** The net of the alpha++ NFC algorithm. Model: `NfcNetModel`, expectations: `NfcPlaceSpec`. Plan: `NfcPlaceProofs` shows that searches keep sets of names of the log and that the loop over sets gives a place for each; `NfcPlaceProps` follows all steps of a run which gives a net and uses C92 for the triples. That a run gives a net if no name at an end of a trace follows itself is not proved. 5 theorems, refuted: `replays_own_log_refuted`.
* **C95** The alpha sharp algorithm. Model: `SharpModel`, expectations: `SharpSpec`. Plan: `SharpProofs` shows the meaning of each relation from C85 and the log info, that sets of pairs are ascending lists, and an invariant of the search with clones (each tuple fits, or is a clone with the same name twice in each pair). That the search ends is not proved (clones may come back); all claims about what is left are about searches which end, but the one for first tuples which cannot be united, where the search ends after one round. 6 theorems, refuted: `clone_refuted`, `one_left_refuted`.
* **C96** Iterators over logs, simple logs and default graphs. Model: `IterModel` (a store of traces which may change between the calls, an iterator with its index), expectations: `IterSpec` (places reached by steps forward and backward). Plan: induction on the calls for any start place; induction on the events left for whole traces and logs; lookups in mapped dictionaries for graphs. 9 theorems, refuted: `removed_refuted`.
* **C97** Building Petri nets and asking them. Model: `PnetModel` (calls on a net with the table places_to_transitions and the counter of ids), expectations: `PnetSpec` (what was connected, read off the list of calls). Plan: an invariant by induction on the calls from the end: the table and the arcs are those of the calls, ids are below the counter, two arcs with one id are the same. 7 theorems, refuted: `delete_refuted`, `place_refuted`.
