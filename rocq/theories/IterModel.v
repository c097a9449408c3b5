(** Iterators over logs, simple logs and default graphs of the backend: src/rust/ficus_backend/src/event_log/core/log_iterator.rs,
    event_log/simple/simple_event_log.rs and utils/graph/graph_conversions.rs.
    Traces are shared (Rc<RefCell>): a log is a list of numbers of traces, and [store] has the events of each; any code may change the store
    between two calls.  Borrowing never fails, as nothing is borrowed for longer than a call. *)
From Verif Require Import Py InfoModel.

Section Iterators.
  Context {E R : Type}.
  Variable processor : E -> R.     (* event_processor *)
  (** Traces by their number: the target of Rc<RefCell<TTrace>>, log_iterator.rs 10, 61. *)
  Definition store := nat -> list E.
  (** TraceIterator, log_iterator.rs 56-64: the trace and event_index. *)
  Record titer := mkTIter { ti_trace : nat; ti_index : nat }.
  (** TraceIterator::new, 92-98. *)
  Definition titer_new (trace : nat) : titer := mkTIter trace 0.
  (** next, 73-84. *)
  Definition titer_next (s : store) (it : titer) : titer * option R :=
    match nth_error (s (ti_trace it)) (ti_index it) with
    | None => (it, None)
    | Some e => (mkTIter (ti_trace it) (ti_index it + 1), Some (processor e))
    end.
  (** step_back, 100-104. *)
  Definition titer_back (it : titer) : titer := if 0 <? ti_index it then mkTIter (ti_trace it) (ti_index it - 1) else it.
  (** LogIterator, 5-13: the numbers of traces the log has are given with each call. *)
  Definition liter := nat.
  (** next, 36-53; new, 20-26. *)
  Definition liter_next (log : list nat) (it : liter) : liter * option titer :=
    match nth_error log it with
    | None => (it, None)
    | Some trace => (it + 1, Some (titer_new trace))
    end.

  (** What is done with an iterator: next, step_back, or a change of traces by other code.  next and step_back, 73-84 and 100-104. *)
  Inductive titer_op := TNext | TBack | TChange (f : store -> store).
  (** What the calls of next give, 73-104. *)
  Fixpoint titer_run (ops : list titer_op) (s : store) (it : titer) : list (option R) :=
    match ops with
    | [] => []
    | TNext :: r => let '(it, out) := titer_next s it in out :: titer_run r s it
    | TBack :: r => titer_run r s (titer_back it)
    | TChange f :: r => titer_run r (f s) it
    end.
  (** for item in iterator: next is called until it gives None, 73-84. *)
  Fixpoint titer_collect (fuel : nat) (s : store) (it : titer) : result (list R) :=
    match fuel with
    | 0 => Err Diverges
    | S fuel => match titer_next s it with
                | (_, None) => Ok []
                | (it, Some x) => bind (titer_collect fuel s it) (fun l => Ok (x :: l))
                end
    end.
  (** The same for a log and the traces in it, 36-53. *)
  Fixpoint liter_collect (fuel : nat) (s : store) (log : list nat) (it : liter) : result (list (list R)) :=
    match fuel with
    | 0 => Err Diverges
    | S fuel' => match liter_next log it with
                 | (_, None) => Ok []
                 | (it, Some t) => bind (titer_collect fuel s t) (fun x => bind (liter_collect fuel' s log it) (fun l => Ok (x :: l)))
                 end
    end.
End Iterators.

(** * Simple logs *)

(** SimpleEvent, simple_event_log.rs 187-190: the name and the timestamp, in seconds. *)
Record simple_event := mkSimple { se_name : pystr; se_time : Z }.
(** SimpleTrace::new, 169-180; [start] is DateTime::<Utc>::MIN_UTC, 160.  Adding a second panics only after more seconds than dates have. *)
Definition simple_trace (start : Z) (raw : list pystr) : list simple_event :=
  fst (fold_left (fun '(events, current) name => (events ++ [mkSimple name current], current + 1)%Z) raw ([], start)).
(** SimpleEventLog::new, 24-33. *)
Definition simple_log (start : Z) (raw : list (list pystr)) : list (list simple_event) := map (simple_trace start) raw.
(** to_raw_vector, 67-69, core/trace/traces_holder.rs, core/event/events_holder.rs: the names. *)
Definition simple_raw (log : list (list simple_event)) : list (list pystr) := map (map se_name) log.
(** set_name and set_timestamp, 215-221. *)
Definition simple_set_name (e : simple_event) (name : pystr) : simple_event := mkSimple name (se_time e).
(** 219-221. *)
Definition simple_set_time (e : simple_event) (time : Z) : simple_event := mkSimple (se_name e) time.

(** * Default graphs *)

(** GraphNode, utils/graph/graph_node.rs 4-10. *)
Record gnode (A : Type) := mkGNode { gn_id : N; gn_data : option A }.
Arguments mkGNode {A}. Arguments gn_id {A}. Arguments gn_data {A}.
(** Graph, utils/graph/graph.rs 9-16. *)
Record ggraph (A B : Type) := mkGGraph { gg_nodes : dict N (gnode A); gg_connections : dict N (dict N (option B)) }.
Arguments mkGGraph {A B}. Arguments gg_nodes {A B}. Arguments gg_connections {A B}.
(** to_default_graph_nodes, graph_conversions.rs 19-33; [show] is to_string. *)
Definition default_nodes {A} (show : A -> pystr) (nodes : dict N (gnode A)) : dict N (gnode pystr) :=
  map (fun kv => (fst kv, mkGNode (gn_id (snd kv)) (match gn_data (snd kv) with None => None | Some d => Some (show d) end))) nodes.
(** to_default_graph_connections, 35-50. *)
Definition default_connections {B} (show : B -> pystr) (connections : dict N (dict N (option B))) : dict N (dict N (option pystr)) :=
  map (fun kv => (fst kv, map (fun ld => (fst ld, match snd ld with None => None | Some d => Some (show d) end)) (snd kv))) connections.
(** to_default_graph, 11-16. *)
Definition to_default_graph {A B} (show_node : A -> pystr) (show_edge : B -> pystr) (g : ggraph A B) : ggraph pystr pystr :=
  mkGGraph (default_nodes show_node (gg_nodes g)) (default_connections show_edge (gg_connections g)).
