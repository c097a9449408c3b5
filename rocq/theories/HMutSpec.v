(** Logs as object graphs: what a reference shows and which objects make it up. *)
From Verif Require Import Py LogModel HeapModel HeapSpec.

(** The log a reference shows (all attribute values are plain). *)
Definition shows (h : heap) (v : hv) (L : eventlog) : Prop := exists t, looks h v t /\ tree_log t = Some L.

(** The trace objects of a log and the event objects of a trace. *)
Definition trace_objects (h : heap) (lg : hv) (ts : list loc) : Prop :=
  exists l t a e c p g, lg = HRef l /\ cells h l = Some (OLog (HRef t) a e c p g) /\ cells h t = Some (OList (map HRef ts)).
Definition event_objects (h : heap) (tr : loc) (es : list loc) : Prop :=
  exists e a, cells h tr = Some (OTrace (HRef e) a) /\ cells h e = Some (OList (map HRef es)).
Definition objects (h : heap) (lg : hv) (ts : list loc) (ess : list (list loc)) : Prop :=
  trace_objects h lg ts /\ Forall2 (event_objects h) ts ess.

(** The dict of an event. *)
Definition payload_of (h : heap) (ev p : loc) : Prop := cells h ev = Some (OEvent (HRef p)).
Definition list_of (h : heap) (tr e : loc) : Prop := exists a, cells h tr = Some (OTrace (HRef e) a).

(** [x] is referred to by [owner] only. *)
Definition sole (h : heap) (owner x : loc) : Prop := forall y o, cells h y = Some o -> In x (refs o) -> y = owner.

(** No event object occurs twice in the log and no two events have the same dict. *)
Definition events_unshared (h : heap) (ess : list (list loc)) : Prop :=
  NoDup (concat ess) /\ forall ev p, In ev (concat ess) -> payload_of h ev p -> sole h ev p.
(** No trace object occurs twice in the log and no two traces have the same list. *)
Definition traces_unshared (h : heap) (ts : list loc) : Prop :=
  NoDup ts /\ forall tr e, In tr ts -> list_of h tr e -> sole h tr e.

(** Everything that existed before is as it was. *)
Definition old_kept (h h' : heap) : Prop := next h <= next h' /\ forall x, x < next h -> cells h' x = cells h x.

From Verif Require Import CtxModel PipeModel.

(** Contexts are left alone. *)
Definition contexts_kept (h h' : heap) : Prop := forall x d, cells h x = Some (OCtx d) -> cells h' x = Some (OCtx d).
(** A computation that leaves contexts alone. *)
Definition spares {X A} (m : act X A) : Prop :=
  forall w w' r, (forall l, next (w_heap w) <= l -> cells (w_heap w) l = None) -> m w = (w', r) ->
    (forall l, next (w_heap w') <= l -> cells (w_heap w') l = None) /\ next (w_heap w) <= next (w_heap w') /\ contexts_kept (w_heap w) (w_heap w').

(** execute returns the context it got; of its entries only "log" may be replaced, and if it raises none is. *)
Definition keeps_context {X} (execute : hv -> act X hv) : Prop :=
  forall w w' r c d, closed (w_heap w) -> cells (w_heap w) c = Some (OCtx d) -> execute (HRef c) w = (w', r) ->
  match r with
  | Ok v => v = HRef c /\ exists lg, cells (w_heap w') c = Some (OCtx (dset str_eq_dec d log_key lg))
  | Err _ => cells (w_heap w') c = Some (OCtx d)
  end.
(** execute returns a new context with the entry "log" only; the one it got has all its entries. *)
Definition replaces_context {X} (execute : hv -> act X hv) : Prop :=
  forall w w' r c d, closed (w_heap w) -> cells (w_heap w) c = Some (OCtx d) -> execute (HRef c) w = (w', r) ->
  cells (w_heap w') c = Some (OCtx d) /\
  forall v, r = Ok v -> exists c' lg, v = HRef c' /\ next (w_heap w) <= c' /\ cells (w_heap w') c' = Some (OCtx [(log_key, lg)]).
(** execute needs a log. *)
Definition needs_log {X} (execute : hv -> act X hv) : Prop :=
  forall w c d, closed (w_heap w) -> cells (w_heap w) c = Some (OCtx d) -> dget str_eq_dec d log_key = None ->
  exists w', execute (HRef c) w = (w', Err ValueError) /\ old_kept (w_heap w) (w_heap w').
