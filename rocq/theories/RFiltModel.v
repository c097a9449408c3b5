(** The parts of the backend which drop events and traces, look for the variants of a log and change events:
    src/rust/ficus_backend/src/pipelines/filtering_parts.rs 20-67, mutations_parts.rs 9-37, util_parts.rs 57-100,
    activities_parts.rs 448-487, with features/mutations/filtering.rs, mutations.rs and split.rs and
    event_log/core/trace/traces_holder.rs and event_log/core/event/events_holder.rs.
    An event is its name, its time in seconds and the rest (payload and user data), which these functions only move around.
    A context holds an optional log and optional names; the keys of a configuration are optional.  [missing] stands for a
    key in neither, ValueError for a text which is no regex.
    Not modelled: std's hash of a text ([text_hash]), fancy_regex ([compile]; matching may fail at run time), the order of
    hash tables ([ord], which may differ for each table: the table is named by its place) and the two ends of time.
    Offsets in a text count characters, not bytes. *)
From Verif Require Import Py ReplayModel RPipeModel.
From Verif Require SufModel.

(** XesEventImpl, event_log/xes/xes_event.rs 13-16. *)
Record fevent (P : Type) := mkFE { fe_name : pystr; fe_time : Z; fe_rest : P }.
Arguments mkFE {P}. Arguments fe_name {P}. Arguments fe_time {P}. Arguments fe_rest {P}.
(** set_name, event_log/xes/xes_event.rs 54-56. *)
Definition fe_rename {P} (n : pystr) (e : fevent P) : fevent P := mkFE n (fe_time e) (fe_rest e).

(** fancy_regex::Regex: is_match and find, None when matching fails, features/mutations/filtering.rs 15-17 and
    activities_parts.rs 461-476. *)
Record regex := mkRx { rx_match : pystr -> option bool; rx_find : pystr -> option (option (nat * nat)) }.

(** Vec::remove, events_holder.rs 70 and traces_holder.rs 55, 96. *)
Fixpoint remove_at {A} (l : list A) (i : nat) : list A :=
  match l, i with [], _ => [] | _ :: r, 0 => r | x :: r, S i' => x :: remove_at r i' end.
(** A change through traces[index].borrow_mut(), traces_holder.rs 53. *)
Fixpoint set_nth {A} (l : list A) (i : nat) (v : A) : list A :=
  match l, i with [], _ => [] | _ :: r, 0 => v :: r | x :: r, S i' => x :: set_nth r i' v end.

(** remove_events_by, events_holder.rs 62-73: [n] is the number of places not looked at yet. *)
Fixpoint remove_from_back {A} (pred : A -> result bool) (n : nat) (events : list A) : result (list A) :=
  match n with
  | 0 => Ok events
  | S i => match nth_error events i with
           | None => rpanic
           | Some e => bind (pred e) (fun b => remove_from_back pred i (if b then remove_at events i else events))
           end
  end.
(** remove_events_by, events_holder.rs 62-73. *)
Definition remove_events_by {A} (pred : A -> result bool) (events : list A) : result (list A) :=
  remove_from_back pred (length events) events.

(** filter_events_by, traces_holder.rs 46-58. *)
Fixpoint filter_from_back {A} (pred : A -> result bool) (n : nat) (log : list (list A)) : result (list (list A)) :=
  match n with
  | 0 => Ok log
  | S i => match nth_error log i with
           | None => rpanic
           | Some t => bind (remove_events_by pred t) (fun t' =>
               filter_from_back pred i (match t' with [] => remove_at log i | _ => set_nth log i t' end))
           end
  end.
(** filter_events_by, traces_holder.rs 46-58. *)
Definition filter_events_by {A} (pred : A -> result bool) (log : list (list A)) : result (list (list A)) :=
  filter_from_back pred (length log) log.

(** filter_traces, traces_holder.rs 86-99: the second loop. *)
Fixpoint remove_marked {A} (marked : list nat) (n : nat) (log : list A) : list A :=
  match n with
  | 0 => log
  | S i => remove_marked marked i (if existsb (Nat.eqb i) marked then remove_at log i else log)
  end.
(** filter_traces, traces_holder.rs 86-99. *)
Definition filter_traces {A} (pred : A -> nat -> bool) (log : list A) : list A :=
  let marked := fold_left (fun marked index => match nth_error log index with
                                               | Some t => if pred t index then index :: marked else marked
                                               | None => marked end) (seq 0 (length log)) [] in
  remove_marked marked (length log) log.

Section Filters.
  Context {P : Type}.
  Variables (no_rest : P) (min_utc max_utc : Z).
  Variable text_hash : pystr -> N.                                      (* DefaultHasher *)
  Variable ord : list nat -> forall B : Type, list B -> list B.         (* the order of the entries of a hash table *)
  Variable compile : pystr -> option regex.                             (* Regex::new *)
  (** XesTraceImpl, event_log/xes/xes_trace.rs 10-12. *)
  Notation trace := (list (fevent P)).
  (** XesEventLogImpl, event_log/xes/xes_event_log.rs 16-22, its traces. *)
  Notation log := (list (list (fevent P))).

  (** filter_log_by_name, filtering.rs 7-9. *)
  Definition filter_log_by_name (l : log) (name : pystr) : result log :=
    filter_events_by (fun e => Ok (str_eqb (fe_name e) name)) l.
  (** filter_log_by_names, filtering.rs 11-13. *)
  Definition filter_log_by_names (l : log) (names : list pystr) : result log :=
    filter_events_by (fun e => Ok (existsb (str_eqb (fe_name e)) names)) l.
  (** filter_log_by_regex, filtering.rs 15-17. *)
  Definition filter_log_by_regex (l : log) (rx : regex) : result log :=
    filter_events_by (fun e => SufModel.unwrap (rx_match rx (fe_name e))) l.
  (** rename_events, mutations.rs 6-16, with mutate_events, traces_holder.rs 60-67 and events_holder.rs 84-91. *)
  Definition rename_events (l : log) (name : pystr) (sel : fevent P -> bool) : log :=
    map (map (fun e => if sel e then fe_rename name e else e)) l.

  (** new_with_min_date and new_with_max_date, xes_event.rs 73-86. *)
  Definition at_min (n : pystr) : fevent P := mkFE n min_utc no_rest.
  (** xes_event.rs 84-86. *)
  Definition at_max (n : pystr) : fevent P := mkFE n max_utc no_rest.
  (** add_artificial_start_end_activities, mutations.rs 18-44. *)
  Definition add_start_end (l : log) (start stop : bool) : log :=
    map (fun t => let t := if start then at_min (str "ARTIFICIAL_START") :: t else t in
                  if stop then t ++ [at_max (str "ARTIFICIAL_END")] else t) l.

  (** TracePointer, split.rs 10-13. *)
  Notation pointer := (nat * list (fevent P))%type.
  (** create_len_to_traces_map, split.rs 64-82. *)
  Definition len_to_traces (l : log) : dict nat (list pointer) :=
    fold_left (fun d it => dpush Nat.eq_dec d (length (snd it)) it) (combine (seq 0 (length l)) l) [].
  (** The inner loop of update_groups, split.rs 134-148. *)
  Definition by_hash (group : list pointer) (index : nat) : result (dict N (list pointer)) :=
    loopM (fun d it => match nth_error (snd it) index with
                       | None => rpanic
                       | Some e => Ok (dpush N.eq_dec d (text_hash (fe_name e)) it)
                       end) group [].
  (** update_groups, split.rs 120-156; [place] names the tables. *)
  Fixpoint update_groups (place : list nat) (groups : list (list pointer)) (index : nat) : result (list (list pointer) * bool) :=
    match groups with
    | [] => Ok ([], true)
    | g :: rest =>
        bind (if length g =? 1 then Ok ([g], true)
              else bind (by_hash g index) (fun d => Ok (map snd (ord (length rest :: index :: place) _ d), false))) (fun first =>
        bind (update_groups place rest index) (fun others =>
        Ok (fst first ++ fst others, (snd first && snd others)%bool)))
    end.
  (** The loop of process_traces_group, split.rs 95-108, over the indices of the first trace. *)
  Fixpoint refine (place : list nat) (indices : list nat) (groups : list (list pointer)) : result (list (list pointer)) :=
    match indices with
    | [] => Ok groups
    | index :: rest =>
        bind (update_groups place groups index) (fun r =>
        if snd r then Ok groups else refine place rest (fst r))
    end.
  (** process_traces_group, split.rs 84-113. *)
  Definition process_group (place : list nat) (traces : list pointer) : result (list (list pointer)) :=
    if length traces =? 1 then Ok [traces]
    else match traces with
         | [] => rpanic
         | first :: _ => refine place (seq 0 (length (snd first))) [traces]
         end.
  (** result.sort_by, split.rs 60: by the index of the first of a group, stable; first[0] panics for an empty group. *)
  Definition first_index (g : list pointer) : nat := match g with p :: _ => fst p | [] => 0 end.
  (** split.rs 60. *)
  Fixpoint insert_group (g : list pointer) (l : list (list pointer)) : list (list pointer) :=
    match l with
    | [] => [g]
    | h :: r => if first_index g <=? first_index h then g :: h :: r else h :: insert_group g r
    end.
  (** create_trace_pointers_groups, split.rs 49-62. *)
  Definition pointers_groups (l : log) : result (list (list pointer)) :=
    bind (loopM (fun acc kv => bind (process_group [fst kv] (snd kv)) (fun gs => Ok (acc ++ gs)))
                (ord [] _ (len_to_traces l)) []) (fun groups =>
    if forallb (fun g => negb (length g =? 0)) groups then Ok (fold_right insert_group [] groups) else rpanic).
  (** get_traces_groups_indices, split.rs 30-38. *)
  Definition groups_indices (l : log) : result (list (list nat)) :=
    bind (pointers_groups l) (fun groups => Ok (map (map fst) groups)).
  (** split_by_traces, split.rs 40-47. *)
  Definition split_by_traces (l : log) : result (list (list trace)) :=
    bind (pointers_groups l) (fun groups => Ok (map (map snd) groups)).

  (** The keys which the parts read from their configuration, pipelines/keys/context_keys.rs 186, 195, 258, 285. *)
  Record filt_config := mkFCfg { ff_event_name : option pystr; ff_regex : option pystr; ff_count : option nat; ff_class : option pystr }.
  (** PipelineContext, pipelines/context.rs 17-101, for the keys used here. *)
  Record filt_context := mkFCtx { fx_log : option log; fx_names : option (list (list pystr)) }.
  (** try_parse_regex, pipeline_parts.rs 144-149, and filtering_parts.rs 35-41. *)
  Definition parse (text : pystr) : result regex := match compile text with Some rx => Ok rx | None => Err ValueError end.
  (** A change through get_user_data_mut, pipeline_parts.rs 132-142. *)
  Definition with_log (c : filt_context) (f : log -> result log) : result filt_context :=
    bind (need (fx_log c)) (fun l => bind (f l) (fun l' => Ok (mkFCtx (Some l') (fx_names c)))).

  (** filter_log_by_event_name, filtering_parts.rs 20-28. *)
  Definition name_part (cfg : filt_config) (c : filt_context) : result filt_context :=
    with_log c (fun l => bind (need (ff_event_name cfg)) (fun n => filter_log_by_name l n)).
  (** filter_log_by_regex, filtering_parts.rs 30-43. *)
  Definition regex_part (cfg : filt_config) (c : filt_context) : result filt_context :=
    with_log c (fun l => bind (need (ff_regex cfg)) (fun r => bind (parse r) (fun rx => filter_log_by_regex l rx))).
  (** filter_log_by_variants, filtering_parts.rs 45-58. *)
  Definition variants_part (cfg : filt_config) (c : filt_context) : result filt_context :=
    with_log c (fun l => bind (groups_indices l) (fun groups =>
      bind (mapM (fun g => SufModel.unwrap (hd_error g)) groups) (fun firsts =>
      Ok (filter_traces (fun _ index => negb (existsb (Nat.eqb index) firsts)) l)))).
  (** filter_traces_by_count, filtering_parts.rs 60-68. *)
  Definition count_part (cfg : filt_config) (c : filt_context) : result filt_context :=
    with_log c (fun l => bind (need (ff_count cfg)) (fun n => Ok (filter_traces (fun t _ => length t <? n) l))).
  (** add_artificial_start_end_events, add_artificial_start_events and add_artificial_end_events, mutations_parts.rs 9-37. *)
  Definition start_end_part (start stop : bool) (cfg : filt_config) (c : filt_context) : result filt_context :=
    with_log c (fun l => Ok (add_start_end l start stop)).
  (** get_names_event_log, util_parts.rs 57-75. *)
  Definition get_names_part (cfg : filt_config) (c : filt_context) : result filt_context :=
    bind (need (fx_log c)) (fun l => Ok (mkFCtx (fx_log c) (Some (map (map fe_name) l)))).
  (** The inner loop of use_names_event_log, util_parts.rs 82-88. *)
  Fixpoint dated (date : Z) (names : list pystr) : trace :=
    match names with [] => [] | n :: r => mkFE n date no_rest :: dated (date + 1) r end.
  (** use_names_event_log, util_parts.rs 77-98. *)
  Definition use_names_part (cfg : filt_config) (c : filt_context) : result filt_context :=
    bind (need (fx_names c)) (fun names => Ok (mkFCtx (Some (map (dated min_utc) names)) (fx_names c))).

  (** The body of the loop of apply_class_extractor, activities_parts.rs 461-484; a match lies within the text, so that the
      slice of 481 does not panic. *)
  Definition extract_class (flt cls : regex) (e : fevent P) : result (fevent P) :=
    bind (SufModel.unwrap (rx_match flt (fe_name e))) (fun b =>
    if negb b then Ok e
    else match rx_find cls (fe_name e) with
         | None => Ok e
         | Some found => let '(start, stop) := match found with Some r => r | None => (0, length (fe_name e)) end in
                         if start =? 0 then Ok (fe_rename (firstn (stop - start) (skipn start (fe_name e))) e) else Ok e
         end).
  (** apply_class_extractor, activities_parts.rs 448-487. *)
  Definition class_part (cfg : filt_config) (c : filt_context) : result filt_context :=
    with_log c (fun l =>
      bind (need (ff_class cfg)) (fun cls => bind (parse cls) (fun cls =>
      bind (need (ff_regex cfg)) (fun flt => bind (parse flt) (fun flt =>
      mapM (mapM (extract_class flt cls)) l))))).
End Filters.

(** EventsHolder with its two lazy cells, events_holder.rs 11-19: how often each name occurs (with the number of events) and
    the places of each name. *)
Record holder (P : Type) := mkHold {
  eh_events : list (fevent P); eh_info : option (dict pystr nat * nat); eh_positions : option (dict pystr (list nat)) }.
Arguments mkHold {P}. Arguments eh_events {P}. Arguments eh_info {P}. Arguments eh_positions {P}.
(** increase_in_map, utils/hash_map_utils.rs 4-13. *)
Definition increase (d : dict pystr nat) (k : pystr) : dict pystr nat :=
  dset str_eq_dec d k (match dget str_eq_dec d k with Some n => S n | None => 1 end).
(** EventSequenceInfo::new, events_holder.rs 127-141. *)
Definition sequence_info {P} (events : list (fevent P)) : dict pystr nat * nat :=
  (fold_left (fun d e => increase d (fe_name e)) events [], length events).
(** EventsPositions::new, events_holder.rs 150-163. *)
Definition events_positions {P} (events : list (fevent P)) : dict pystr (list nat) :=
  fst (fold_left (fun di e => (dpush str_eq_dec (fst di) (fe_name e) (snd di), S (snd di))) events ([], 0)).
(** EventsHolder::new, events_holder.rs 50-56. *)
Definition new_holder {P} (events : list (fevent P)) : holder P := mkHold events None None.
(** clone, events_holder.rs 21-34. *)
Definition clone_holder {P} (h : holder P) : holder P := mkHold (eh_events h) None None.
(** get_or_create_event_sequence_info, events_holder.rs 93-99. *)
Definition get_info {P} (h : holder P) : holder P * (dict pystr nat * nat) :=
  match eh_info h with
  | Some i => (h, i)
  | None => let i := sequence_info (eh_events h) in (mkHold (eh_events h) (Some i) (eh_positions h), i)
  end.
(** get_or_create_events_positions, events_holder.rs 101-107. *)
Definition get_positions {P} (h : holder P) : holder P * dict pystr (list nat) :=
  match eh_positions h with
  | Some i => (h, i)
  | None => let i := events_positions (eh_events h) in (mkHold (eh_events h) (eh_info h) (Some i), i)
  end.
(** push, events_holder.rs 62-64; events_mut().insert and .push, mutations.rs 28-42; mutate_events, events_holder.rs 86-93. *)
Definition change_events {P} (f : list (fevent P) -> list (fevent P)) (h : holder P) : holder P :=
  mkHold (f (eh_events h)) (eh_info h) (eh_positions h).
