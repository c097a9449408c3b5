(** Model of the functions that use activity instances of a log:
    legacy/analysis/patterns/event_log_patterns.py 417-561, 586-710 and patterns/util.py 63-65,
    138-184.  Logs as in LogModel; instances as in ActModel. *)
From Verif Require Import Py LogModel HashModel PatternModel TreeModel ActModel.

(** legacy/analysis/patterns/constants.py 2. *)
Definition undefined_activity : pystr := str "UndefinedActivity".
(** constants.py 3. *)
Definition underlying_events_key : pystr := str "UnderlyingEvents".
(** constants.py 4. *)
Definition underlying_activities_key : pystr := str "UnderlyingActivities".

(** patterns_models.py 68-71; [OtherStrategy] is any other object. *)
Inductive strategy := DontInsert | InsertAsSingleEvent | InsertAllEvents | OtherStrategy.

(** seq[a:b] of legacy/analysis/patterns/event_log_patterns.py 462, 493, 514, 543, 603, 654 *)
Definition slice_of {A} (l : list A) (a b : nat) : list A := firstn (b - a) (skipn a l).
(** [seq[i] for i in range(a, b)], legacy/analysis/patterns/event_log_patterns.py 448-449 *)
Definition index_range {A} (l : list A) (a b : nat) : result (list A) :=
  mapM (fun i => match nth_error l i with Some x => Ok x | None => Err IndexError end) (range a b).
(** Instances of [D] nodes; [None] of the extraction is a loop that does not end (C26 shows that it
    never happens).  The loop is legacy/analysis/patterns/event_log_patterns.py 321-378. *)
Definition ended {A} (o : option A) : result A := match o with Some x => Ok x | None => Err Diverges end.

(** activity.node with the data the functions below read: name, activity_level, unique_name(), the
    identity of the node object and the repeat set, patterns_models.py 26-55. *)
Record ndata := mkND { nd_name : pystr; nd_level : Z; nd_unique : pystr; nd_id : N; nd_repeat_set : repeat_set }.
(** ActivityInTraceInfo, patterns_models.py 58-65. *)
Notation inst := (instance ndata).
(** info.node.name and info.node.activity_level.  patterns_models.py 35, 60. *)
Definition inst_name (x : inst) : pystr := nd_name (an_data (in_node x)).
(** patterns_models.py 34, 60. *)
Definition inst_level (x : inst) : Z := nd_level (an_data (in_node x)).

(** The calls made by _process_trace_activities, legacy/analysis/patterns/event_log_patterns.py 417-430, in order. *)
Inductive visit := Gap (start stop : nat) | Act (x : inst).
(** legacy/analysis/patterns/event_log_patterns.py 421-430: [index] is the end of the previous instance, [n] = len(trace). *)
Fixpoint process_trace_activities (index n : nat) (activities : list inst) : list visit :=
  match activities with
  | [] => if index <? n then [Gap index n] else []
  | x :: r => (if index <? in_start x then [Gap index (in_start x)] else []) ++ Act x :: process_trace_activities (in_start x + in_length x) n r
  end.

(** zip(a, b), legacy/analysis/patterns/event_log_patterns.py 439, 489, 510, 534, 618: stops with the shorter list *)
Definition zip {A B} (a : list A) (b : list B) : list (A * B) := combine a b.

(** legacy/analysis/patterns/event_log_patterns.py 466: current_event[underlying_activities_key] if present.  Simplification: a value that is
    no list of nodes is an error (Python would iterate over it). *)
Definition get_underlying_activities (e : event) : result (list N) :=
  match eget e underlying_activities_key with
  | None => Ok []
  | Some (VActs ids) => Ok ids
  | Some _ => Err TypeError
  end.

(** legacy/analysis/patterns/event_log_patterns.py 455-472: the event of an instance. *)
Definition activity_event (use_hashes_as_names : bool) (trace : list event) (x : inst) : result event :=
  let nm := if use_hashes_as_names then nd_unique (an_data (in_node x)) else inst_name x in
  let underlying := slice_of trace (in_start x) (in_start x + in_length x) in
  bind (mapM get_underlying_activities underlying) (fun acts =>
  Ok (eset (eset (eset [] concept_name (VStr nm)) underlying_events_key (VEvents underlying))
           underlying_activities_key (VActs (concat acts ++ [nd_id (an_data (in_node x))])))).

(** legacy/analysis/patterns/event_log_patterns.py 442-453: the events inserted for a gap. *)
Definition undefined_events (st : strategy) (trace : list event) (a b : nat) : result (list event) :=
  match st with
  | InsertAsSingleEvent => Ok [eset [] concept_name (VStr undefined_activity)]
  | InsertAllEvents => index_range trace a b
  | DontInsert => Ok []
  | OtherStrategy => Err ValueError
  end.

(** legacy/analysis/patterns/event_log_patterns.py 442 and 455: the two callbacks of line 474. *)
Definition visit_events (use_hashes : bool) (st : strategy) (trace : list event) (v : visit) : result (list event) :=
  match v with
  | Gap a b => undefined_events st trace a b
  | Act x => bind (activity_event use_hashes trace x) (fun e => Ok [e])
  end.

(** legacy/analysis/patterns/event_log_patterns.py 439-480 for one trace. *)
Definition new_trace_from_activities (use_hashes : bool) (st : strategy) (activities : list inst) (t : trace) : result trace :=
  bind (mapM (visit_events use_hashes st (t_events t)) (process_trace_activities 0 (length (t_events t)) activities))
       (fun ess => Ok (trace_of_events (concat ess))).

(** legacy/analysis/patterns/event_log_patterns.py 433-482. *)
Definition create_new_log_from_activities (l : eventlog) (activities : list (list inst)) (use_hashes : bool) (st : strategy) : result eventlog :=
  bind (mapM (fun p => new_trace_from_activities use_hashes st (fst p) (snd p)) (zip activities (l_traces l)))
       (fun ts => Ok (log_of_traces ts)).

(** legacy/analysis/patterns/event_log_patterns.py 559 sorted(l, key=start_pos): stable. *)
Fixpoint insert_start (x : inst) (l : list inst) : list inst :=
  match l with
  | [] => [x]
  | y :: r => if in_start x <=? in_start y then x :: y :: r else y :: insert_start x r
  end.
(** legacy/analysis/patterns/event_log_patterns.py 559. *)
Definition sort_start (l : list inst) : list inst := fold_right insert_start [] l.
(** legacy/analysis/patterns/event_log_patterns.py 501 sorted(l, key=start_pos, reverse=True): stable, latest first. *)
Fixpoint insert_start_desc (x : inst) (l : list inst) : list inst :=
  match l with
  | [] => [x]
  | y :: r => if in_start y <=? in_start x then x :: y :: r else y :: insert_start_desc x r
  end.
(** legacy/analysis/patterns/event_log_patterns.py 501. *)
Definition sort_start_desc (l : list inst) : list inst := fold_right insert_start_desc [] l.

(** legacy/analysis/patterns/event_log_patterns.py 485-504 full_fill_activities for one trace. *)
Definition full_fill_trace (creator : list event -> list inst) (activities : list inst) (t : trace) : list inst :=
  sort_start_desc (fold_left (fun acc v => match v with Gap a b => acc ++ creator (slice_of (t_events t) a b) | Act _ => acc end)
                             (process_trace_activities 0 (length (t_events t)) activities) activities).
(** legacy/analysis/patterns/event_log_patterns.py 485-504. *)
Definition full_fill_activities (creator : list event -> list inst) (l : eventlog) (activities : list (list inst)) : list (list inst) :=
  map (fun p => full_fill_trace creator (fst p) (snd p)) (zip activities (l_traces l)).

(** legacy/analysis/patterns/event_log_patterns.py 511-521 for one trace. *)
Definition unattached_events (activities : list inst) (t : trace) : list event :=
  flat_map (fun v => match v with Gap a b => slice_of (t_events t) a b | Act _ => [] end)
           (process_trace_activities 0 (length (t_events t)) activities).
(** legacy/analysis/patterns/event_log_patterns.py 507-523. *)
Definition create_unattached_events_log (l : eventlog) (activities : list (list inst)) : eventlog :=
  log_of_traces (map (fun p => trace_of_events (unattached_events (fst p) (snd p))) (zip activities (l_traces l))).

(** patterns/util.py 63-65 _do_create_hashes *)
Definition do_create_hashes (class_extractor : event -> result pystr) (es : list event) : result (list N) :=
  bind (mapM class_extractor es) (fun cs => Ok (map string_poly_hash cs)).

Section AddUnattached.
  Variables (nodes : list (anode ndata)) (class_extractor : event -> result pystr)
            (accept : inst -> bool) (min_number_of_events : nat) (should_narrow : bool).

  (** legacy/analysis/patterns/event_log_patterns.py 537-552. *)
  Definition process_undefined_events (t : trace) (a b : nat) : result (list inst) :=
    bind (do_create_hashes class_extractor (slice_of (t_events t) a b)) (fun hashes =>
    if length hashes <? min_number_of_events then Ok []
    else bind (ended (extract_trace nd_name nodes should_narrow accept hashes)) (fun new =>
         Ok (map (fun x => mkInst (in_node x) (a + in_start x) (in_length x)) new))).

  (** legacy/analysis/patterns/event_log_patterns.py 534-559 for one trace. *)
  Definition add_unattached_trace (existing : list inst) (t : trace) : result (list inst) :=
    bind (loopM (fun acc v => match v with
                              | Gap a b => bind (process_undefined_events t a b) (fun new => Ok (acc ++ new))
                              | Act _ => Ok acc
                              end) (process_trace_activities 0 (length (t_events t)) existing) [])
         (fun new => Ok (sort_start (new ++ existing))).

  (** legacy/analysis/patterns/event_log_patterns.py 526-561. *)
  Definition add_unattached_activities (l : eventlog) (existing : list (list inst)) : result (list (list inst)) :=
    mapM (fun p => add_unattached_trace (fst p) (snd p)) (zip existing (l_traces l)).
End AddUnattached.

(** legacy/analysis/patterns/event_log_patterns.py 614-634 _create_logs_for_activities: handle_activity over all instances. *)
Definition logs_for_activities (trace_creator : trace -> inst -> result (option trace)) (l : eventlog) (activities : list (list inst))
  : result (dict pystr (list trace)) :=
  loopM (fun d p =>
    loopM (fun d v => match v with
                      | Gap _ _ => Ok d
                      | Act x => bind (trace_creator (snd p) x) (fun o =>
                                 match o with
                                 | None => Ok d
                                 | Some t => Ok (dpush str_eq_dec d (inst_name x) t)
                                 end)
                      end) (process_trace_activities 0 (length (t_events (snd p))) (fst p)) d)
    (zip activities (l_traces l)) [].

(** legacy/analysis/patterns/event_log_patterns.py 599-608 _create_trace_for_activity. *)
Definition trace_for_activity (class_extractor : event -> result pystr) (t : trace) (x : inst) : result trace :=
  bind (mapM (fun e => bind (class_extractor e) (fun c => Ok (eset e concept_name (VStr c))))
             (slice_of (t_events t) (in_start x) (in_start x + in_length x)))
       (fun es => Ok (trace_of_events es)).

(** legacy/analysis/patterns/event_log_patterns.py 586-596 create_logs_for_activities; the logs of the dict are MyEventLog() plus traces. *)
Definition create_logs_for_activities (class_extractor : event -> result pystr) (level : Z) (l : eventlog) (activities : list (list inst))
  : result (dict pystr (list trace)) :=
  logs_for_activities (fun t x => if (inst_level x =? level)%Z then bind (trace_for_activity class_extractor t x) (fun t' => Ok (Some t')) else Ok None) l activities.

(** Python list indexing and slicing with a possibly negative index, legacy/analysis/patterns/event_log_patterns.py 650, 656, 664. *)
Definition py_index {A} (l : list A) (i : Z) : result A :=
  let i := if (i <? 0)%Z then (i + Z.of_nat (length l))%Z else i in
  if (i <? 0)%Z then Err IndexError else match nth_error l (Z.to_nat i) with Some x => Ok x | None => Err IndexError end.
(** The bounds of a slice, legacy/analysis/patterns/event_log_patterns.py 656. *)
Definition py_bound (n : nat) (i : Z) : nat := Z.to_nat (if (i <? 0)%Z then i + Z.of_nat n else i).
(** legacy/analysis/patterns/event_log_patterns.py 656. *)
Definition py_slice {A} (l : list A) (a b : Z) : list A := slice_of l (py_bound (length l) a) (py_bound (length l) b).

(** patterns/util.py 153-155 _find_events_for_repeat_set *)
Definition find_events_for_repeat_set (l : eventlog) (r : repeat_set) : result (list event) :=
  match nth_error (l_traces l) (rs_trace_index r) with
  | None => Err IndexError
  | Some t => Ok (slice_of (t_events t) (rs_first_pos r) (rs_first_pos r + rs_length r))
  end.

(** set(a) == set(b).  legacy/analysis/patterns/event_log_patterns.py 667. *)
Definition same_names (a b : list pystr) : bool :=
  forallb (fun x => existsb (str_eqb x) b) a && forallb (fun x => existsb (str_eqb x) a) b.

(** legacy/analysis/patterns/event_log_patterns.py 655-662: every extractor renames all events; both conditions on [level] always hold there. *)
Definition rename_all (ex : event -> result pystr) (es : list event) : result (list event) :=
  mapM (fun e => bind (ex e) (fun c => Ok (eset e concept_name (VStr c)))) es.
(** x[concept_name] of the events just renamed, legacy/analysis/patterns/event_log_patterns.py 665; a name that is no str cannot be modelled as
    a class and is an error here. *)
Definition name_of_event (e : event) : result pystr :=
  bind (egetitem e concept_name) (fun v => match v with VStr s => Ok s | _ => Err TypeError end).

(** legacy/analysis/patterns/event_log_patterns.py 644-674 the trace creator of create_logs_for_activities_with_promote. *)
Definition promote_trace (l : eventlog) (desired : Z) (exs : list (event -> result pystr)) (adjust : bool) (t : trace) (x : inst) : result (option trace) :=
  let level := inst_level x in
  if (desired <? level)%Z then Ok None
  else if (level =? desired)%Z then
    bind (if adjust then py_index exs desired else Ok name_of_event) (fun ex =>
    bind (trace_for_activity ex t x) (fun t' => Ok (Some t')))
  else
    bind (find_events_for_repeat_set l (nd_repeat_set (an_data (in_node x)))) (fun repeat_events =>
    let orig := slice_of (t_events t) (in_start x) (in_start x + in_length x) in
    bind (loopM (fun es ex => rename_all ex es) (py_slice exs level (desired + 1)) orig) (fun copies =>
    bind (py_index exs desired) (fun ex =>
    bind (mapM ex repeat_events) (fun repeat_classes =>
    bind (mapM name_of_event copies) (fun classes =>
    Ok (if same_names repeat_classes classes then Some (trace_of_events (if adjust then copies else orig)) else None)))))).

(** legacy/analysis/patterns/event_log_patterns.py 637-676. *)
Definition create_logs_for_activities_with_promote (l : eventlog) (activities : list (list inst)) (desired : Z)
  (exs : list (event -> result pystr)) (adjust : bool) : result (dict pystr (list trace)) :=
  if (Z.of_nat (length exs) =? desired + 1)%Z then logs_for_activities (promote_trace l desired exs adjust) l activities
  else Err AssertionErr.

(** patterns/util.py 138-150 substitute_original_events on one event and on a list; a value under
    'UnderlyingEvents' that is no list of events is an error (see get_underlying_activities). *)
Fixpoint substitute_value (v : value) : result (list event) :=
  match v with
  | VEvents es =>
      (fix go (es : list event) : result (list event) :=
         match es with
         | [] => Ok []
         | e :: r =>
             bind ((fix look (d : event) : result (list event) :=
                      match d with
                      | [] => Ok [e]
                      | (k, v') :: d' => if str_eq_dec underlying_events_key k then substitute_value v' else look d'
                      end) e)
                  (fun xs => bind (go r) (fun ys => Ok (xs ++ ys)))
         end) es
  | _ => Err TypeError
  end.
(** patterns/util.py 138-150. *)
Definition substitute_original_events (es : list event) : result (list event) := substitute_value (VEvents es).

(** Number of events in a value at any depth: bounds the queue loops below.  The loops are legacy/analysis/patterns/event_log_patterns.py 690-696 and 702-708. *)
Fixpoint value_size (v : value) : nat :=
  match v with
  | VEvents es => (fix go (es : list event) : nat :=
                     match es with
                     | [] => 0
                     | e :: r => S ((fix look (d : event) : nat := match d with [] => 0 | (_, v') :: d' => value_size v' + look d' end) e + go r)
                     end) es
  | _ => 0
  end.

(** legacy/analysis/patterns/event_log_patterns.py 688-696 execute_with_underlying_events: the events [action] is applied to, in order. *)
Fixpoint underlying_loop (fuel : nat) (q : list event) : result (list event) :=
  match fuel with
  | O => Err Diverges
  | S fuel' =>
      match q with
      | [] => Ok []
      | e :: q' =>
          match eget e underlying_events_key with
          | Some (VEvents es) => underlying_loop fuel' (q' ++ es)
          | Some _ => Err TypeError
          | None => bind (underlying_loop fuel' q') (fun l => Ok (e :: l))
          end
      end
  end.
(** legacy/analysis/patterns/event_log_patterns.py 688-696: the queue starts with the event alone. *)
Definition execute_with_underlying_events (e : event) : result (list event) :=
  underlying_loop (S (value_size (VEvents [e]))) [e].

(** legacy/analysis/patterns/event_log_patterns.py 702-710 of count_underlying_events: the same loop with a counter. *)
Fixpoint count_loop (fuel : nat) (q : list event) (count : nat) : result nat :=
  match fuel with
  | O => Err Diverges
  | S fuel' =>
      match q with
      | [] => Ok count
      | e :: q' =>
          match eget e underlying_events_key with
          | Some (VEvents es) => count_loop fuel' (q' ++ es) count
          | Some _ => Err TypeError
          | None => count_loop fuel' q' (count + 1)
          end
      end
  end.
(** legacy/analysis/patterns/event_log_patterns.py 699-710. *)
Definition count_underlying_events (e : event) : result nat := count_loop (S (value_size (VEvents [e]))) [e] 0.

(** legacy/analysis/patterns/event_log_patterns.py 679-685 calculate_underlying_events_count. *)
Definition calculate_underlying_events_count (l : eventlog) : result nat :=
  loopM (fun c t => loopM (fun c e => bind (count_underlying_events e) (fun k => Ok (c + k))) (t_events t) c) (l_traces l) 0.

(** patterns/util.py 158-166 split_activities_by_levels_dict. *)
Definition split_activities_by_levels_dict (l : list (anode ndata)) : dict Z (list (anode ndata)) :=
  fold_left (fun d a => dpush Z.eq_dec d (nd_level (an_data a)) a) l [].
(** patterns/util.py 169-171: sorted by key (keys are distinct). *)
Fixpoint insert_level {V} (x : Z * V) (l : list (Z * V)) : list (Z * V) :=
  match l with
  | [] => [x]
  | y :: r => if (fst x <=? fst y)%Z then x :: y :: r else y :: insert_level x r
  end.
(** legacy/analysis/patterns/util.py 169-171. *)
Definition split_activities_by_level (l : list (anode ndata)) : list (Z * list (anode ndata)) :=
  fold_right insert_level [] (split_activities_by_levels_dict l).
(** patterns/util.py 174-175 *)
Definition get_activities_for_level (l : list (anode ndata)) (level : Z) : result (list (anode ndata)) :=
  dgetitem Z.eq_dec (split_activities_by_levels_dict l) level.
(** patterns/util.py 178-184 *)
Definition select_traces_activities_for_activity_level (l : list (list inst)) (level : Z) : list (list inst) :=
  map (filter (fun x => (inst_level x =? level)%Z)) l.
