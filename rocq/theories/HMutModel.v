(** legacy/mutations/event_log_mutations.py 7-64 and the parts of
    legacy/pipelines/mutations/mutations_parts.py and filtering/filter_parts.py on objects with
    identity.  Simplification: the list a loop runs over is read when the loop starts (no function
    here changes it while looping). *)
From Verif Require Import Py LogModel MutModel HeapModel CtxModel PipeModel.

(** for trace in log: Sequence iteration over log.traces, event_log.py 117-124. *)
Definition log_traces (lg : hv) : H (list hv) :=
  hbind (deref lg) (fun o => match o with OLog ts _ _ _ _ _ => as_list ts | _ => fail TypeError end).
(** for event in trace, event_log.py 51-52. *)
Definition trace_events (tr : hv) : H (list hv) :=
  hbind (deref tr) (fun o => match o with OTrace es _ => as_list es | _ => fail TypeError end).
(** event.payload.  legacy/log/event_log.py 7-8. *)
Definition event_payload (ev : hv) : H hv :=
  hbind (deref ev) (fun o => match o with OEvent p => ret p | _ => fail TypeError end).

(** MyTrace(), event_log.py 45-46, 76-79. *)
Definition new_trace : H hv :=
  hbind (alloc (OList [])) (fun l => hbind (alloc (ODict [])) (fun a =>
  hbind (alloc (OTrace (HRef l) (HRef a))) (fun t => ret (HRef t)))).
(** MyEventLog(), event_log.py 89-101. *)
Definition new_log : H hv :=
  hbind (alloc (ODict [])) (fun g => hbind (alloc (ODict [])) (fun p => hbind (alloc (ODict [])) (fun c =>
  hbind (alloc (ODict [])) (fun e => hbind (alloc (ODict [])) (fun a => hbind (alloc (OList [])) (fun t =>
  hbind (alloc (OLog (HRef t) (HRef a) (HRef e) (HRef c) (HRef p) (HRef g))) (fun l => ret (HRef l)))))))).
(** MyEvent() with one attribute set, event_log.py 7-8, 16-17. *)
Definition new_named_event (n : pystr) : H hv :=
  hbind (alloc (ODict [(concept_name, HAtom (VStr n))])) (fun p => hbind (alloc (OEvent (HRef p))) (fun e => ret (HRef e))).

(** list.append / list.insert(0, _) on the list behind an attribute.  legacy/log/event_log.py 60-64, 103-104. *)
Definition list_change (f : list hv -> list hv) (v : hv) : H unit :=
  match v with HRef l => hbind (as_list v) (fun xs => poke l (OList (f xs))) | HAtom _ => fail AttributeError end.
(** trace.append, event_log.py 60-61; trace.insert(_, 0), 63-64. *)
Definition trace_append (tr ev : hv) : H unit :=
  hbind (deref tr) (fun o => match o with OTrace es _ => list_change (fun xs => xs ++ [ev]) es | _ => fail TypeError end).
(** legacy/log/event_log.py 63-64. *)
Definition trace_insert0 (tr ev : hv) : H unit :=
  hbind (deref tr) (fun o => match o with OTrace es _ => list_change (fun xs => ev :: xs) es | _ => fail TypeError end).
(** log.append, event_log.py 103-104. *)
Definition log_append (lg tr : hv) : H unit :=
  hbind (deref lg) (fun o => match o with OLog ts _ _ _ _ _ => list_change (fun xs => xs ++ [tr]) ts | _ => fail TypeError end).

(** A loop.  legacy/mutations/event_log_mutations.py 13-20. *)
Fixpoint hiter {A} (f : A -> H unit) (l : list A) : H unit :=
  match l with [] => ret tt | x :: r => hbind (f x) (fun _ => hiter f r) end.

(** The attributes of an event as values, for functions that look at the event.  legacy/log/event_log.py 13-14. *)
Definition atom (v : hv) : result value := match v with HAtom a => Ok a | HRef _ => Err TypeError end.
(** legacy/log/event_log.py 10-14. *)
Definition flat_payload (d : dict pystr hv) : result event :=
  mapM (fun kv => bind (atom (snd kv)) (fun v => Ok (fst kv, v))) d.
(** legacy/mutations/event_log_mutations.py 16. *)
Definition lift_r {A} (r : result A) : H A := fun h => (h, r).
(** legacy/log/event_log.py 10-14. *)
Definition read_event (ev : hv) : H event :=
  hbind (event_payload ev) (fun p => hbind (as_dict p) (fun d => lift_r (flat_payload d))).
(** legacy/log/event_log.py 16-17. *)
Definition put_payload (d : event) : dict pystr hv := map (fun kv => (fst kv, HAtom (snd kv))) d.
(** A function that changes the given event only.  legacy/mutations/event_log_mutations.py 44-47. *)
Definition change_event (mut : event -> result event) (ev : hv) : H unit :=
  hbind (event_payload ev) (fun p => hbind (as_dict p) (fun d => hbind (lift_r (flat_payload d)) (fun e =>
  hbind (lift_r (mut e)) (fun e' => match p with HRef l => poke l (ODict (put_payload e')) | HAtom _ => fail AttributeError end)))).

(** _filter_events, event_log_mutations.py 11-22. *)
Definition h_filter_events (sel : event -> result bool) (lg : hv) : H hv :=
  hbind new_log (fun nl =>
  hbind (log_traces lg) (fun ts =>
  hbind (hiter (fun tr =>
    hbind new_trace (fun nt =>
    hbind (trace_events tr) (fun es =>
    hbind (hiter (fun ev => hbind (read_event ev) (fun e => hbind (lift_r (sel e)) (fun b => if b then trace_append nt ev else ret tt))) es) (fun _ =>
    hbind (trace_events nt) (fun kept => if 0 <? length kept then log_append nl nt else ret tt))))) ts) (fun _ =>
  ret nl))).

(** _filter_traces, event_log_mutations.py 25-31, with the length test of remove_empty_traces, 55-56. *)
Definition h_remove_empty_traces (min_event_count : Z) (lg : hv) : H hv :=
  hbind new_log (fun nl =>
  hbind (log_traces lg) (fun ts =>
  hbind (hiter (fun tr => hbind (trace_events tr) (fun es =>
    if (min_event_count <? Z.of_nat (length es))%Z then log_append nl tr else ret tt)) ts) (fun _ =>
  ret nl))).

(** preprocess_events, event_log_mutations.py 44-47, for functions that change the given event. *)
Definition h_preprocess_events (mut : event -> result event) (lg : hv) : H unit :=
  hbind (log_traces lg) (fun ts =>
  hiter (fun tr => hbind (trace_events tr) (fun es => hiter (change_event mut) es)) ts).

(** AddArtificialStartEndEvents, mutations_parts.py 90-101. *)
Definition h_add_artificial (lg : hv) : H unit :=
  hbind (log_traces lg) (fun ts =>
  hiter (fun tr =>
    hbind (new_named_event artificial_end) (fun e => hbind (trace_append tr e) (fun _ =>
    hbind (new_named_event artificial_start) (fun s => trace_insert0 tr s)))) ts).

(** The selection functions and mutators of event_log_mutations.py 7-8, 34-35, 38-41, 50-52, 59-64
    and mutations_parts.py 67-81 (as in MutModel.v).  legacy/mutations/event_log_mutations.py 8. *)
Definition sel_not_name (n : pystr) (e : event) : result bool :=
  bind (egetitem e concept_name) (fun v => Ok (negb (value_is_str v n))).
(** legacy/mutations/event_log_mutations.py 35. *)
Definition sel_not_names (ns : list pystr) (e : event) : result bool :=
  bind (egetitem e concept_name) (fun v => Ok (negb (existsb (value_is_str v) ns))).
(** legacy/mutations/event_log_mutations.py 51. *)
Definition sel_not (p : event -> result bool) (e : event) : result bool := bind (p e) (fun b => Ok (negb b)).
(** legacy/mutations/event_log_mutations.py 38-41. *)
Definition mut_name (f : value -> result value) (e : event) : result event :=
  bind (egetitem e concept_name) (fun v => bind (f v) (fun v' => Ok (eset e concept_name v'))).
(** legacy/mutations/event_log_mutations.py 59-64. *)
Definition mut_lifecycle (e : event) : result event :=
  Ok (if ehas e lifecycle_transition then edel e lifecycle_transition else e).
(** legacy/pipelines/mutations/mutations_parts.py 67-81. *)
Definition mut_class (sel : event -> result bool) (cls : event -> result pystr) (e : event) : result event :=
  bind (sel e) (fun b => if b then bind (cls e) (fun c => Ok (eset e concept_name (VStr c))) else Ok e).

Section Parts.
  Variable X : Type.
  (** legacy/pipelines/pipelines.py 12-40. *)
Notation act := (act X).

  (** PipelinePartResult().with_log(f(log(current_input))).  legacy/pipelines/mutations/mutations_parts.py 16, 24. *)
  Definition fresh_log_part (f : hv -> act hv) (c : hv) : act hv :=
    abind (lift new_ctx) (fun c' => abind (lift (ctx_log c)) (fun l => abind (f l) (fun l' => lift (with_value log_key l' c')))).
  (** current_input.with_log(f(log(current_input))).  legacy/pipelines/mutations/mutations_parts.py 32. *)
  Definition same_log_part (f : hv -> act hv) (c : hv) : act hv :=
    abind (lift (ctx_log c)) (fun l => abind (f l) (fun l' => lift (with_value log_key l' c))).
  (** f(log(current_input)); return current_input.  legacy/pipelines/mutations/mutations_parts.py 85-87. *)
  Definition inplace_part (f : hv -> act unit) (c : hv) : act hv :=
    abind (lift (ctx_log c)) (fun l => abind (f l) (fun _ => aret c)).

  (** mutations_parts.py 11-16. *)
  Definition RemoveEventFromLogByName (n : pystr) : hv -> act hv := fresh_log_part (fun l => lift (h_filter_events (sel_not_name n) l)).
  (** mutations_parts.py 19-24. *)
  Definition RemoveEventsFromLogByNames (ns : list pystr) : hv -> act hv := fresh_log_part (fun l => lift (h_filter_events (sel_not_names ns) l)).
  (** mutations_parts.py 27-32. *)
  Definition RemoveEventsFromLogPredicate (p : event -> result bool) : hv -> act hv := same_log_part (fun l => lift (h_filter_events (sel_not p) l)).
  (** mutations_parts.py 35-42. *)
  Definition PreprocessEventsNames (f : value -> result value) (c : hv) : act hv :=
    abind (lift (ctx_log c)) (fun l => abind (lift (h_preprocess_events (mut_name f) l)) (fun _ =>
    abind (lift new_ctx) (fun c' => lift (with_value log_key l c')))).
  (** mutations_parts.py 45-51. *)
  Definition PreprocessEvents (mut : event -> result event) : hv -> act hv := inplace_part (fun l => lift (h_preprocess_events mut l)).
  (** mutations_parts.py 67-81. *)
  Definition ApplyClassExtractor (cls : event -> result pystr) (sel : event -> result bool) : hv -> act hv :=
    inplace_part (fun l => lift (h_preprocess_events (mut_class sel cls) l)).
  (** mutations_parts.py 84-87. *)
  Definition RemoveLifecycleTransitionsAttributes : hv -> act hv := inplace_part (fun l => lift (h_preprocess_events mut_lifecycle l)).
  (** mutations_parts.py 90-101. *)
  Definition AddArtificialStartEndEvents : hv -> act hv := inplace_part (fun l => lift (h_add_artificial l)).

  (** A loop.  legacy/pipelines/mutations/mutations_parts.py 56-59. *)
  Fixpoint aiter {A} (f : A -> act unit) (l : list A) : act unit :=
    match l with [] => aret tt | x :: r => abind (f x) (fun _ => aiter f r) end.

  (** SubstituteUnderlyingEvents, mutations_parts.py 54-60; [subst] is substitute_original_events,
      analysis/patterns/util.py. *)
  Definition SubstituteUnderlyingEvents (subst : hv -> act hv) (c : hv) : act hv :=
    abind (lift new_log) (fun nl => abind (lift (ctx_log c)) (fun l => abind (lift (log_traces l)) (fun ts =>
    abind (aiter (fun t => abind (subst t) (fun t' => lift (log_append nl t'))) ts) (fun _ => lift (with_value log_key nl c))))).

  (** filter_parts.py 12-23, 56-69: the entropy filters; [do_filter] is _do_filter. *)
  Definition EntropyFilter (do_filter : hv -> act hv) : hv -> act hv := fresh_log_part do_filter.
  (** filter_parts.py 137-143. *)
  Definition FilterTracesByCount (m : Z) : hv -> act hv := same_log_part (fun l => lift (h_remove_empty_traces m l)).
  (** filter_parts.py 146-153; [split] is split_log_by_traces, analysis/event_log_split.py 7-56. *)
  Definition FilterTracesByVariants (split : hv -> act (list (list hv))) : hv -> act hv :=
    same_log_part (fun l => abind (split l) (fun gs => abind (lift new_log) (fun nl =>
      abind (lift (hiter (fun g => match g with t :: _ => log_append nl t | [] => fail IndexError end) gs)) (fun _ => aret nl)))).
  (** filter_parts.py 107-134: draws a diagram. *)
  Definition DrawTillEnd (draw : hv -> act unit) : hv -> act hv := inplace_part draw.
End Parts.
Arguments fresh_log_part {X}. Arguments same_log_part {X}. Arguments inplace_part {X}. Arguments aiter {X A}.
Arguments RemoveEventFromLogByName {X}. Arguments RemoveEventsFromLogByNames {X}. Arguments RemoveEventsFromLogPredicate {X}.
Arguments PreprocessEventsNames {X}. Arguments PreprocessEvents {X}. Arguments ApplyClassExtractor {X}.
Arguments RemoveLifecycleTransitionsAttributes {X}. Arguments AddArtificialStartEndEvents {X}.
Arguments SubstituteUnderlyingEvents {X}. Arguments EntropyFilter {X}. Arguments FilterTracesByCount {X}.
Arguments FilterTracesByVariants {X}. Arguments DrawTillEnd {X}.
