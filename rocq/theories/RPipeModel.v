(** The pipeline parts of the backend which look for activities:
    src/rust/ficus_backend/src/pipelines/activities_parts.rs 80-428, patterns_parts.rs 43-138 and util_parts.rs 26-34,
    with event_log/core/event/event_hasher.rs.
    A context holds an optional value for each key used here; the keys of a configuration are optional too.  The value a key
    has in neither is [missing].  Messages of the log of the server and the name of the missing key are left out.
    Not modelled: std's hash of a text and of a number ([text_hash], [sip]), fancy_regex ([compile], [find]) and the order of
    hash tables ([ord]); theorems hold for all of them.  The limit of u32 for levels is left out. *)
From Verif Require Import Py ReplayModel PatternModel TreeModel ActModel RActModel RLogModel.
From Verif Require SufModel.

(** PipelinePartExecutionError::MissingContext, pipelines/pipeline_parts.rs 120-142. *)
Definition missing {A} : result A := Err KeyError.
(** get_user_data, pipelines/pipeline_parts.rs 120-130. *)
Definition need {A} (o : option A) : result A := match o with Some a => Ok a | None => missing end.

(** PatternsKindDto, patterns_parts.rs 18-25. *)
Inductive patterns_kind := PrimitiveTandemArrays | MaximalTandemArrays | MaximalRepeats | SuperMaximalRepeats | NearSuperMaximalRepeats.
(** UndefActivityHandlingStrategyDto, activities_parts.rs 42-46. *)
Inductive undef_dto := DtoDontInsert | DtoInsertSingle | DtoInsertAll.
(** AdjustingMode, activity_instances.rs 318-321. *)
Inductive adjusting := FromAllLog | FromUnattachedSubTraces.
(** ActivitiesLogsSourceDto, activities_parts.rs 62-65. *)
Inductive logs_source := SourceLog | SourceTracesActivities.

(** The keys which the parts read from their configuration; pipelines are arguments of their own.
    pipelines/keys/context_keys.rs 40-626. *)
Record act_config := mkACfg {
  cf_kind : option patterns_kind; cf_level : option nat; cf_array_length : option nat; cf_merged : option bool;
  cf_regex : option pystr; cf_regexes : option (list pystr); cf_narrow : option narrowing; cf_min_length : option nat;
  cf_filter : option filter_kind; cf_undef : option undef_dto; cf_events_count : option nat; cf_adjusting : option adjusting;
  cf_only_last : option bool; cf_source : option logs_source }.

Section Parts.
  Context {A : Type}.                              (* what an event is, besides the events below *)
  Variables (name_of : A -> pystr) (fresh : pystr -> A).   (* name(), XesEventImpl::new_with_min_date *)
  Variables (sip : N -> N) (text_hash : pystr -> N) (ord : nat -> forall B : Type, list B -> list B).
  Variable compile : pystr -> option (pystr -> option (nat * nat)).     (* Regex::new, find *)

  (** The name and the level of a node, repeat_sets.rs 77-84. *)
  Notation node_data := (pystr * nat)%type.
  (** PipelineContext, pipelines/context.rs 17-101, for the keys used here. *)
  Record act_context := mkACtx {
    ac_log : option (list (list (revent A))); ac_hashes : option (list (list N)); ac_patterns : option (list (list sub_array));
    ac_repeat_sets : option (list repeat_set); ac_activities : option (list (anode node_data));
    ac_instances : option (list (list (instance node_data))); ac_name : option pystr }.
  (** PipelineContext::empty_from, pipelines/context.rs 62-67. *)
  Definition empty_context : act_context := mkACtx None None None None None None None.
  (** put_concrete, utils/user_data/user_data.rs 33-42, for the keys used here. *)
  Definition put_log (c : act_context) v := mkACtx (Some v) (ac_hashes c) (ac_patterns c) (ac_repeat_sets c) (ac_activities c) (ac_instances c) (ac_name c).
  (** utils/user_data/user_data.rs 33-42. *)
  Definition put_patterns (c : act_context) h v := mkACtx (ac_log c) (Some h) (Some v) (ac_repeat_sets c) (ac_activities c) (ac_instances c) (ac_name c).
  (** utils/user_data/user_data.rs 33-42. *)
  Definition put_activities (c : act_context) v := mkACtx (ac_log c) (ac_hashes c) (ac_patterns c) (ac_repeat_sets c) (Some v) (ac_instances c) (ac_name c).
  (** utils/user_data/user_data.rs 33-42. *)
  Definition put_instances (c : act_context) v := mkACtx (ac_log c) (ac_hashes c) (ac_patterns c) (ac_repeat_sets c) (ac_activities c) (Some v) (ac_name c).
  (** do_clear_activities_related_stuff, activities_parts.rs 305-310. *)
  Definition clear (c : act_context) := mkACtx (ac_log c) (ac_hashes c) None None None None (ac_name c).

  (** RegexEventHasher::new(..).ok().unwrap(), util_parts.rs 28-29; Regex::new(..).unwrap(), activity_instances.rs 573-576. *)
  Definition extractor (cfg : act_config) : result (option (pystr -> option (nat * nat))) :=
    match cf_regex cfg with None => Ok None | Some r => bind (SufModel.unwrap (compile r)) (fun f => Ok (Some f)) end.
  (** The hash of an event, event_hasher.rs 26-82: that of the part of its name which the regex takes. *)
  Definition event_hash (ex : option (pystr -> option (nat * nat))) (e : revent A) : N := text_hash (part_name ex (name_of (ev_about e))).
  (** create_hashed_event_log, util_parts.rs 26-34. *)
  Definition hashed_log (cfg : act_config) (log : list (list (revent A))) : result (list (list N)) :=
    bind (extractor cfg) (fun ex => Ok (map (map (event_hash ex)) log)).

  (** The pairs of SufModel as sub arrays, features/analysis/patterns/repeats.rs 24-33. *)
  Definition as_subs (l : list (list (nat * nat))) : list (list sub_array) := map (map (fun p => mkSub (fst p) (snd p))) l.
  (** The call of patterns_finder, patterns_parts.rs 84-138. *)
  Definition run_finder (kind : patterns_kind) (cfg : act_config) (hashes : list (list N)) : result (list (list sub_array)) :=
    let tandem f := bind (SufModel.unwrap (cf_array_length cfg)) (fun n => f sip hashes n) in
    let repeats ty := bind (need (cf_merged cfg)) (fun m => bind (SufModel.find_repeats ord ty m hashes) (fun l => Ok (as_subs l))) in
    match kind with
    | PrimitiveTandemArrays => tandem r_primitive_subs
    | MaximalTandemArrays => tandem r_maximal_subs
    | MaximalRepeats => repeats SufModel.MaximalRepeat
    | SuperMaximalRepeats => repeats SufModel.SuperMaximalRepeat
    | NearSuperMaximalRepeats => repeats SufModel.NearSuperMaximalRepeat
    end.
  (** do_discover_activities, activities_parts.rs 88-111; create_activity_name, called for each repeat set, can panic. *)
  Definition discover (c : act_context) (level : nat) (cfg : act_config) : result act_context :=
    bind (need (ac_log c)) (fun log =>
    bind (need (ac_patterns c)) (fun patterns =>
    bind (need (ac_hashes c)) (fun hashes =>
    bind (r_build_repeat_sets sip ord hashes patterns) (fun sets =>
    bind (match sets with [] => Ok None | _ => extractor cfg end) (fun ex =>
    bind (mapM (activity_name name_of ex log) sets) (fun _ =>
    let name r := match activity_name name_of ex log r with Ok n => n | Err _ => [] end in
    bind (r_tree_from_repeats (fun r => (name r, level)) hashes sets) (fun tree =>
    Ok (put_activities c tree)))))))).
  (** find_patterns, patterns_parts.rs 112-138, with find_tandem_arrays_and_put_to_context and find_repeats_and_put_to_context,
      lines 72-110. *)
  Definition find_patterns (c : act_context) (cfg : act_config) : result act_context :=
    bind (need (cf_kind cfg)) (fun kind =>
    bind (need (ac_log c)) (fun log =>
    bind (match kind with
          | PrimitiveTandemArrays | MaximalTandemArrays => bind (SufModel.unwrap (cf_array_length cfg)) (fun _ => Ok tt)
          | _ => bind (need (cf_merged cfg)) (fun _ => Ok tt)
          end) (fun _ =>
    bind (hashed_log cfg log) (fun hashes =>
    bind (run_finder kind cfg hashes) (fun patterns =>
    bind (need (cf_level cfg)) (fun level =>
    discover (put_patterns c hashes patterns) level cfg)))))).
  (** do_discover_activities_instances, activities_parts.rs 120-143: the activities are left sorted. *)
  Definition discover_instances (c : act_context) (cfg : act_config) : result act_context :=
    bind (need (ac_activities c)) (fun tree =>
    bind (need (cf_narrow cfg)) (fun narrow =>
    bind (need (ac_hashes c)) (fun hashes =>
    bind (need (cf_min_length cfg)) (fun min_events =>
    bind (need (cf_filter cfg)) (fun fkind =>
    bind (r_extract_instances fst hashes tree narrow min_events fkind) (fun instances =>
    Ok (put_instances (put_activities c (sort_asc tree)) instances))))))).
  (** "UNDEFINED_ACTIVITY", activity_instances.rs 335. *)
  Definition undef_name : pystr := str "UNDEFINED_ACTIVITY".
  (** The strategy for a value of the configuration, activities_parts.rs 161-167. *)
  Definition strategy_of (u : undef_dto) : strategy A :=
    match u with DtoDontInsert => DontInsert | DtoInsertSingle => InsertSingle (fresh undef_name) | DtoInsertAll => InsertAll end.
  (** The event for an instance, activities_parts.rs 169-171. *)
  Definition event_for (x : instance node_data) : A := fresh (fst (an_data (in_node x))).
  (** do_create_log_from_activities, activities_parts.rs 152-175. *)
  Definition create_log (c : act_context) (cfg : act_config) : result act_context :=
    bind (need (ac_log c)) (fun log =>
    bind (need (ac_instances c)) (fun instances =>
    bind (need (cf_undef cfg)) (fun undef =>
    bind (new_log (strategy_of undef) event_for log instances) (fun new => Ok (put_log c new))))).

  (** What a round of discover_activities_until_no_more finds, activities_parts.rs 357-360. *)
  Definition discovery (level : nat) (cfg : act_config) (c : act_context) : result act_context :=
    bind (find_patterns (clear c) cfg) (fun c1 => bind (discover c1 level cfg) (fun c2 => discover_instances c2 cfg)).
  (** The sum of the lengths, activities_parts.rs 365 and 368. *)
  Definition instances_count (l : list (list (instance node_data))) : nat := list_sum (map (@length _) l).
  (** activities_parts.rs 376. *)
  Definition all_single (l : list (list (instance node_data))) : bool := forallb (forallb (fun y => in_length y =? 1)) l.
  (** The loop of discover_activities_until_no_more, activities_parts.rs 353-393.  The pipeline after a round is a function
      of the context; the contexts it was given are returned too. *)
  Fixpoint until_loop (fuel : nat) (after : option (act_context -> result act_context)) (level : nat) (only_last : bool) (cfg : act_config)
    (c : act_context) : result (act_context * list act_context) :=
    match fuel with
    | 0 => Err Diverges
    | S fuel =>
        bind (need (ac_log c)) (fun log =>
        bind (discovery level cfg c) (fun c3 =>
        bind (need (ac_instances c3)) (fun instances =>
        if instances_count instances =? 0 then Ok (clear c3, []) else
        let pipeline := match after with
                        | Some p => if only_last then if all_single instances then Some p else None else Some p
                        | None => None
                        end in
        bind (match pipeline with Some p => bind (p c3) (fun c4 => Ok (c4, [c3])) | None => Ok (c3, []) end) (fun r =>
        bind (create_log (fst r) cfg) (fun c5 =>
        bind (need (ac_log c5)) (fun new =>
        if (only_last && negb (length (snd r) =? 0)) || (count_events new =? count_events log) then Ok (clear c5, snd r)
        else bind (until_loop fuel after level only_last cfg c5) (fun r' => Ok (fst r', snd r ++ snd r'))))))))
    end.
  (** discover_activities_until_no_more, activities_parts.rs 347-396. *)
  Definition until_no_more (fuel : nat) (after : option (act_context -> result act_context)) (cfg : act_config) (c : act_context) : result (act_context * list act_context) :=
    bind (need (cf_level cfg)) (fun level =>
    bind (need (cf_only_last cfg)) (fun only_last => until_loop fuel after level only_last cfg c)).

  (** create_empty_activities, activities_parts.rs 290-297. *)
  Definition empty_instances (log : list (list (revent A))) : list (list (instance node_data)) := map (fun _ => []) log.
  (** Whether a stretch is looked at, which leaves the activities sorted: activity_instances.rs 443-452. *)
  Definition some_stretch (min_numbers : nat) (hashes : list (list N)) (existing : list (list (instance node_data))) : bool :=
    existsb (fun p => existsb (fun v => match v with Unattached a b => min_numbers <=? b - a | Attached _ => false end) (r_process 0 (length (snd p)) (fst p)))
            (combine existing hashes).
  (** discover_activities_in_unattached_subtraces, activities_parts.rs 248-282. *)
  Definition add_unattached_part (cfg : act_config) (c : act_context) : result act_context :=
    bind (need (ac_log c)) (fun log =>
    let existing := match ac_instances c with Some l => l | None => empty_instances log end in
    bind (need (ac_activities c)) (fun activities =>
    bind (need (cf_narrow cfg)) (fun narrow =>
    bind (hashed_log cfg log) (fun hashes =>
    bind (need (cf_events_count cfg)) (fun min_numbers =>
    bind (need (cf_min_length cfg)) (fun min_events =>
    bind (need (cf_filter cfg)) (fun fkind =>
    bind (r_add_unattached fst activities min_numbers narrow min_events fkind hashes existing) (fun new =>
    Ok (put_instances (put_activities c (if some_stretch min_numbers hashes existing then sort_asc activities else activities)) new))))))))).
  (** adjust_with_activities_from_unattached_events, activities_parts.rs 207-246. *)
  Definition adjust (cfg : act_config) (c : act_context) : result act_context :=
    let c := match ac_activities c with None => put_activities c [] | Some _ => c end in
    bind (need (cf_adjusting cfg)) (fun mode =>
    bind (need (ac_log c)) (fun log =>
    bind (match mode with
          | FromUnattachedSubTraces => match ac_instances c with
                                       | Some instances => bind (unattached_log log instances) (fun l => Ok (put_log empty_context l))
                                       | None => Ok empty_context
                                       end
          | FromAllLog => Ok (put_log empty_context log)
          end) (fun new_context =>
    bind (find_patterns new_context cfg) (fun new_context =>
    bind (need (ac_activities c)) (fun old_activities =>
    bind (need (ac_activities new_context)) (fun new_activities =>
    add_unattached_part cfg (put_activities c (old_activities ++ new_activities)))))))).
  (** The configuration for one level, activities_parts.rs 187-196: the length of tandem arrays is not handed on. *)
  Definition level_config (cfg : act_config) (level : nat) (regex : pystr) : act_config :=
    mkACfg (cf_kind cfg) (Some level) None (cf_merged cfg) (Some regex) None (cf_narrow cfg) (cf_min_length cfg) (cf_filter cfg) None
           (cf_events_count cfg) (cf_adjusting cfg) None None.
  (** The loop over the regexes, activities_parts.rs 185-201. *)
  Fixpoint levels_loop (cfg : act_config) (level : nat) (regexes : list pystr) (c : act_context) : result act_context :=
    match regexes with
    | [] => Ok c
    | r :: rest => bind (adjust (level_config cfg level r) c) (levels_loop cfg (S level) rest)
    end.
  (** discover_activities_instances_for_several_levels, activities_parts.rs 173-205. *)
  Definition several_levels (cfg : act_config) (c : act_context) : result act_context :=
    bind (need (cf_regexes cfg)) (fun regexes =>
    bind (need (cf_level cfg)) (fun level =>
    bind (need (cf_kind cfg)) (fun _ =>
    bind (need (cf_adjusting cfg)) (fun _ =>
    bind (need (cf_merged cfg)) (fun _ =>
    bind (need (cf_narrow cfg)) (fun _ =>
    bind (need (cf_events_count cfg)) (fun _ =>
    bind (need (cf_min_length cfg)) (fun _ =>
    bind (need (cf_filter cfg)) (fun _ =>
    levels_loop cfg level (rev regexes) c))))))))).

  (** execute_with_each_activity_log, activities_parts.rs 398-428: the contexts for which the pipeline is executed, in order;
      the order of the names is that of a hash map.  [pipeline] gives what a context turns into, which is dropped. *)
  Definition each_activity_log (pipeline : act_context -> result act_context) (cfg : act_config) (c : act_context) : result (list act_context) :=
    bind (need (ac_log c)) (fun log =>
    bind (need (cf_source cfg)) (fun source =>
    bind (match source with
          | SourceLog => Ok (logs_from_log name_of log)
          | SourceTracesActivities => bind (need (cf_level cfg)) (fun level => bind (need (ac_instances c)) (fun instances =>
                                      logs_from_instances snd fst log instances level))
          end) (fun logs =>
    mapM (fun p => let temp := mkACtx (Some (snd p)) None None None None None (Some (fst p)) in
                   bind (pipeline temp) (fun _ => Ok temp)) (ord 1 _ logs)))).
End Parts.
