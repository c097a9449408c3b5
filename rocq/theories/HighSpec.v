(** Vocabulary for C46 and C52: repeated and several-level discovery. *)
From Coq Require Import Sorted.
From Verif Require Import Py XesModel LogModel HashModel PatternModel PatternSpec TreeModel TreeSpec ActModel ActSpec ActLogModel HighModel.

(** Number of events of a log, underlying ones not counted. *)
Definition size_of (l : eventlog) : nat := list_sum (map (fun t => length (t_events t)) (l_traces l)).
(** A callable that ends, and one that in addition leaves log and instances of the context alone. *)
Definition ends (h : option (context -> globals -> result (context * globals))) : Prop :=
  forall f c g, h = Some f -> f c g <> Err Diverges.
Definition keeps (h : option (context -> globals -> result (context * globals))) : Prop :=
  forall f c g c' g', h = Some f -> f c g = Ok (c', g') -> c_log c' = c_log c /\ c_instances c' = c_instances c.
Definition extractor_ends (ce : event -> result pystr) : Prop := forall e, ce e <> Err Diverges.
(** Both logs unfold to the same events, trace by trace. *)
Definition same_underlying (l l' : eventlog) : Prop :=
  Forall2 (fun t t' => substitute_original_events (t_events t') = substitute_original_events (t_events t)) (l_traces l) (l_traces l') /\
  calculate_underlying_events_count l' = calculate_underlying_events_count l.
(** The context with nothing but the log. *)
Definition cleared (l : eventlog) (c : context) : Prop :=
  c_log c = Some l /\ c_activities c = Some [] /\ c_repeat_sets c = Some [] /\
  c_instances c = Some (map (fun _ => []) (l_traces l)) /\ c_patterns c = Some (map (fun _ => []) (l_traces l)).

(** All activities of a forest. *)
Definition everywhere (F : list (anode ndata)) : list (anode ndata) := flat_map nodes_of F.
(** The activity [n] stands for the classes, under the extractor, of the stretch of the log [tl] its
    repeat set points at, and is named after them. *)
Definition stands_for (ce : event -> result pystr) (tl : eventlog) (n : anode ndata) : Prop :=
  let r := nd_repeat_set (an_data n) in
  exists t cs names, nth_error (l_traces tl) (rs_trace_index r) = Some t /\ mapM ce (t_events t) = Ok cs /\
    (forall h, In h (an_set n) <-> In h (map string_poly_hash (piece cs (rs_first_pos r) (rs_length r)))) /\
    NoDup names /\ StronglySorted (fun a b => str_leb a b = true) names /\
    (forall s, In s names <-> In s (piece cs (rs_first_pos r) (rs_length r))) /\
    nd_name (an_data n) = str_join (str "::") names.
(** Numbered from [lo] on, below [hi], and called Activity_ and the number. *)
Definition numbered (lo hi : N) (n : anode ndata) : Prop :=
  (lo <= nd_id (an_data n) < hi)%N /\ nd_unique (an_data n) = str "Activity_" ++ show_int (Z.of_N (nd_id (an_data n))).
(** What a context holds before discovery: nothing found is the same as no entry. *)
Definition instances_in (c : context) (l : eventlog) (before : list (list inst)) : Prop :=
  c_instances c = Some before \/ c_instances c = None /\ before = map (fun _ => []) (l_traces l).
Definition activities_in (c : context) : list (anode ndata) := match c_activities c with Some a => a | None => [] end.
(** The extractor gives a class to every event of the log. *)
Definition classifies (l : eventlog) (ce : event -> result pystr) : Prop :=
  forall t e, In t (l_traces l) -> In e (t_events t) -> exists s, ce e = Ok s.
(** The instance [x] of the trace [t]: all classes of its events under [ce] are in the set of its
    activity, which is one of [acts] or, with narrowing, below one of them. *)
Definition found_with (narrow : bool) (ce : event -> result pystr) (acts : list (anode ndata)) (t : trace) (x : inst) : Prop :=
  (exists cs, mapM ce (t_events t) = Ok cs /\ included (map string_poly_hash (piece cs (in_start x) (in_length x))) (an_set (in_node x))) /\
  exists a, In a acts /\ (in_node x = a \/ narrow = true /\ below (in_node x) a).
