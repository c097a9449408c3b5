(** Hashes and equality of events, traces and logs: legacy/log/event_log.py 31-35, 65-69,
    106-115.  [tostr] is Python's str() on attribute values, [tuple_hash] is hash((a, b)) of two
    ints (util.py 59-60), [show_ext]/[show_cls] are str() of the values of the extension and
    classifier dicts.  Simplification: str() is a function of the value, which excludes values
    whose str() shows an object address (a list of MyEvent under 'UnderlyingEvents'). *)
From Verif Require Import Py LogModel HashModel.

Section Eq.
  Variable tostr : value -> pystr.
  Variable show_ext : dict pystr pystr -> pystr.
  Variable show_cls : list pystr -> pystr.
  Variable tuple_hash : Z -> Z -> Z.

  (** MyEvent.__hash__, event_log.py 31-32. *)
  Definition event_hash (e : event) : N := dict_hash tostr e.

  (** MyEventsSequence.__hash__, event_log.py 65-66; hash(event) of a number below 2^61-1 is
      that number. *)
  Definition trace_hash (t : trace) : N := collection_poly_hash (map event_hash (t_events t)).

  (** MyEventLog.__hash__, event_log.py 106-112. *)
  Definition log_hash (l : eventlog) : Z :=
    let h0 := combine_list_of_hashes tuple_hash (map (fun t => Z.of_N (trace_hash t)) (l_traces l)) in
    let h1 := tuple_hash h0 (Z.of_N (dict_hash (fun s => s) (l_attrs l))) in
    let h2 := tuple_hash h1 (Z.of_N (dict_hash show_ext (l_extensions l))) in
    let h3 := tuple_hash h2 (Z.of_N (dict_hash show_cls (l_classifiers l))) in
    tuple_hash h3 (Z.of_N (dict_hash tostr (l_properties l))).

  (** __eq__, event_log.py 34-35, 68-69, 114-115. *)
  Definition event_eq (a b : event) : bool := N.eqb (event_hash a) (event_hash b).
  (** legacy/log/event_log.py 68-69. *)
Definition trace_eq (a b : trace) : bool := N.eqb (trace_hash a) (trace_hash b).
  (** legacy/log/event_log.py 114-115. *)
Definition log_eq (a b : eventlog) : bool := Z.eqb (log_hash a) (log_hash b).
End Eq.
