(** Event log data classes: legacy/log/event_log.py 6-141 as values (no object
    identity; HeapModel.v has the identity-aware version). *)
From Verif Require Import Py.

(** Attribute values that occur in payloads.  [VFloat]/[VDate] carry the textual form
    of the number/date, [VOpaque] is any other Python object, [VEvents] is the list of
    events stored under 'UnderlyingEvents' (a MyTrace or list of MyEvent), [VActs] the list of
    activity nodes stored under 'UnderlyingActivities' (nodes by number).
    Simplification: payload keys are str (the annotation in event_log.py 8 is Any; every
    writer in the package uses str keys). *)
Inductive value : Type :=
| VStr (s : pystr)
| VInt (z : Z)
| VBool (b : bool)
| VFloat (repr : pystr)
| VDate (iso : pystr)
| VEvents (es : list (list (pystr * value)))
| VActs (ids : list N)
| VOpaque (n : N).

(** MyEvent, event_log.py 6-41: a payload dict. *)
Definition event := dict pystr value.

(** event[key], event_log.py 13-14. *)
Definition eget (e : event) (k : pystr) : option value := dget str_eq_dec e k.
(** legacy/log/event_log.py 13-14. *)
Definition egetitem (e : event) (k : pystr) : result value := dgetitem str_eq_dec e k.
(** event[key] = v, event_log.py 16-17. *)
Definition eset (e : event) (k : pystr) (v : value) : event := dset str_eq_dec e k v.
(** del event[key], event_log.py 22-23. *)
Definition edel (e : event) (k : pystr) : event := ddel str_eq_dec e k.
(** key in event: no __contains__, so __iter__ (event_log.py 25-26) over the keys. *)
Definition ehas (e : event) (k : pystr) : bool := dmem str_eq_dec e k.

(** v == s for a str s (a str never equals a value of another type).  Used in legacy/mutations/event_log_mutations.py 8, 35. *)
Definition value_is_str (v : value) (s : pystr) : bool :=
  match v with VStr s' => str_eqb s' s | _ => false end.

(** MyTrace, event_log.py 44-85. *)
Record trace := mkTrace { t_events : list event; t_attrs : dict pystr value }.

(** MyEventLog, event_log.py 88-103. *)
Record eventlog := mkLog {
  l_traces : list trace;
  l_attrs : dict pystr pystr;
  l_extensions : dict pystr (dict pystr pystr);
  l_classifiers : dict pystr (list pystr);
  l_properties : dict pystr value;
  l_globals : dict pystr (dict pystr value)
}.

(** MyEventLog() and MyTrace() with default arguments.  legacy/log/event_log.py 77-79, 89-101. *)
Definition empty_log : eventlog := mkLog [] [] [] [] [] [].
(** legacy/log/event_log.py 89-101. *)
Definition log_of_traces (ts : list trace) : eventlog := mkLog ts [] [] [] [] [].
(** legacy/log/event_log.py 77-79. *)
Definition trace_of_events (es : list event) : trace := mkTrace es [].
