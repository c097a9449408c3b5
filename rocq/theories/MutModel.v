(** Model of legacy/mutations/event_log_mutations.py (1-63) and the mutation parts that
    work directly on events.  Definitions only. *)
From Verif Require Import Py LogModel.

(** event_log_mutations.py 11-22 [_filter_events]: rebuild every trace with the selected
    events, append it when non-empty; the fresh MyEventLog()/MyTrace() carry no attributes.
    The selection function may raise. *)
Fixpoint filter_events_traces (sel : event -> result bool) (ts : list trace) : result (list trace) :=
  match ts with
  | [] => Ok []
  | t :: ts' =>
      bind (filterM sel (t_events t)) (fun es =>
      bind (filter_events_traces sel ts') (fun rest =>
      Ok (if 0 <? length es then trace_of_events es :: rest else rest)))
  end.

(** legacy/mutations/event_log_mutations.py 11-22. *)
Definition filter_events (sel : event -> result bool) (log : eventlog) : result eventlog :=
  bind (filter_events_traces sel (l_traces log)) (fun ts => Ok (log_of_traces ts)).

(** event_log_mutations.py 25-31 [_filter_traces]: keeps the trace objects themselves. *)
Definition filter_traces (sel : trace -> bool) (log : eventlog) : eventlog :=
  log_of_traces (filter sel (l_traces log)).

(** event_log_mutations.py 7-8. *)
Definition remove_event_from_log (log : eventlog) (event_name : pystr) : result eventlog :=
  filter_events (fun e => bind (egetitem e concept_name)
                            (fun v => Ok (negb (value_is_str v event_name)))) log.

(** event_log_mutations.py 34-35; the set of names is given as the list of its elements. *)
Definition remove_events_from_log (log : eventlog) (names : list pystr) : result eventlog :=
  filter_events (fun e => bind (egetitem e concept_name)
                            (fun v => Ok (negb (existsb (value_is_str v) names)))) log.

(** event_log_mutations.py 50-52; the predicate itself may raise. *)
Definition filter_log (log : eventlog) (pred : event -> result bool) : result eventlog :=
  filter_events (fun e => bind (pred e) (fun b => Ok (negb b))) log.

(** event_log_mutations.py 55-56. *)
Definition remove_empty_traces (log : eventlog) (min_event_count : Z) : eventlog :=
  filter_traces (fun t => (min_event_count <? Z.of_nat (length (t_events t)))%Z) log.

(** Assigning log.traces, legacy/log/event_log.py 89-101. *)
Definition with_traces (log : eventlog) (ts : list trace) : eventlog :=
  mkLog ts (l_attrs log) (l_extensions log) (l_classifiers log) (l_properties log) (l_globals log).

(** event_log_mutations.py 44-47 [preprocess_events] as a function on values: every event is
    replaced by its mutated version.  Simplification: no event object occurs twice in the log
    (HeapModel.v treats sharing); the state of the log when the mutator raises half way is not
    modelled. *)
Definition preprocess_events (log : eventlog) (mut : event -> result event) : result eventlog :=
  bind (mapM (fun t => bind (mapM mut (t_events t))
                         (fun es => Ok (mkTrace es (t_attrs t)))) (l_traces log))
       (fun ts => Ok (with_traces log ts)).

(** event_log_mutations.py 38-41 [preprocess_event_names_inplace]; the mutator maps the name
    value to a new one. *)
Definition preprocess_event_names_inplace (log : eventlog) (f : value -> result value)
  : result eventlog :=
  preprocess_events log (fun e =>
    bind (egetitem e concept_name) (fun v =>
    bind (f v) (fun v' => Ok (eset e concept_name v')))).

(** event_log_mutations.py 59-64. *)
Definition remove_lifecycle_attribute (log : eventlog) : result eventlog :=
  preprocess_events log (fun e =>
    Ok (if ehas e lifecycle_transition then edel e lifecycle_transition else e)).

(** legacy/pipelines/mutations/mutations_parts.py 67-81 [ApplyClassExtractor]: the name of each
    selected event is replaced by its class. *)
Definition apply_class_extractor (log : eventlog) (sel : event -> result bool)
  (cls : event -> result pystr) : result eventlog :=
  preprocess_events log (fun e =>
    bind (sel e) (fun b =>
    if b then bind (cls e) (fun c => Ok (eset e concept_name (VStr c))) else Ok e)).

(** legacy/pipelines/mutations/mutations_parts.py 90-101 [AddArtificialStartEndEvents]:
    append the end event, insert the start event at 0. *)
Definition artificial_start : pystr := str "ARTIFICIAL_START".
(** legacy/pipelines/mutations/mutations_parts.py 94. *)
Definition artificial_end : pystr := str "ARTIFICIAL_END".
(** legacy/pipelines/mutations/mutations_parts.py 93-94, 97-98. *)
Definition named_event (n : pystr) : event := [(concept_name, VStr n)].

(** legacy/pipelines/mutations/mutations_parts.py 93-99. *)
Definition add_artificial_start_end_trace (t : trace) : trace :=
  let appended := t_events t ++ [named_event artificial_end] in
  mkTrace (named_event artificial_start :: appended) (t_attrs t).

(** legacy/pipelines/mutations/mutations_parts.py 90-101. *)
Definition add_artificial_start_end (log : eventlog) : eventlog :=
  with_traces log (map add_artificial_start_end_trace (l_traces log)).
