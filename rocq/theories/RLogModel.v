(** Logs made of activity instances in the backend:
    src/rust/ficus_backend/src/features/analysis/patterns/activity_instances.rs 311-423 and 476-717.
    An event is its name, time and payload, here one value of type [A], and the events below it, which sit in its user data
    under one key.  Rc pointers are values: that the events below are shared with the old log and those copied by
    InsertAllEvents are not (a copy shares what is below) makes no difference here, since nothing is changed in place.
    Borrowing an event while its own events below are walked over cannot panic, as no event is below itself.
    Instances have the type of ActModel.  A panic is [rpanic]. *)
From Verif Require Import Py ReplayModel PatternModel TreeModel ActModel RActModel.
From Verif Require SufModel.

(** XesEventImpl, event_log/xes/xes_event.rs 13-16, with UNDERLYING_EVENTS of activity_instances.rs 338-365. *)
Inductive revent (A : Type) := REvent (about : A) (under : option (list (revent A))).
Arguments REvent {A}.
(** What is not below, xes_event.rs 27-45. *)
Definition ev_about {A} (e : revent A) : A := match e with REvent a _ => a end.
(** user_data().get(&key), user_data.rs 97-102. *)
Definition ev_under {A} (e : revent A) : option (list (revent A)) := match e with REvent _ u => u end.

(** UndefActivityHandlingStrategy, activity_instances.rs 311-315; the factory of InsertAsSingleEvent gives equal events. *)
Inductive strategy (A : Type) := DontInsert | InsertSingle (undef : A) | InsertAll.
Arguments DontInsert {A}. Arguments InsertSingle {A}. Arguments InsertAll {A}.

Section New.
  Context {A D : Type}.
  Variables (strat : strategy A) (make : instance D -> A).   (* event_from_activity_factory *)

  (** trace.events()[i], activity_instances.rs 392 and 405. *)
  Definition event_at (trace : list (revent A)) (i : nat) : result (revent A) := SufModel.unwrap (nth_error trace i).
  (** undef_activity_func, activity_instances.rs 385-396. *)
  Definition new_unattached (trace : list (revent A)) (start stop : nat) : result (list (revent A)) :=
    match strat with
    | DontInsert => Ok []
    | InsertSingle a => Ok [REvent a None]
    | InsertAll => mapM (event_at trace) (range start stop)
    end.
  (** activity_func, activity_instances.rs 398-414. *)
  Definition new_attached (trace : list (revent A)) (x : instance D) : result (revent A) :=
    bind (mapM (event_at trace) (range (in_start x) (in_start x + in_length x))) (fun under =>
    Ok (REvent (make x) (Some under))).
  (** One trace, activity_instances.rs 381-419. *)
  Definition new_trace (instances : list (instance D)) (trace : list (revent A)) : result (list (revent A)) :=
    loopM (fun acc v => match v with
                        | Unattached a b => bind (new_unattached trace a b) (fun es => Ok (acc ++ es))
                        | Attached x => bind (new_attached trace x) (fun e => Ok (acc ++ [e]))
                        end) (r_process 0 (length trace) instances) [].
  (** create_new_log_from_activities_instances, activity_instances.rs 369-423: zip stops at the shorter one. *)
  Definition new_log (log : list (list (revent A))) (instances : list (list (instance D))) : result (list (list (revent A))) :=
    mapM (fun p => new_trace (fst p) (snd p)) (combine instances log).

  (** create_log_from_unattached_events, activity_instances.rs 643-665; events()[start..end] panics like range_of. *)
  Definition unattached_trace (trace : list (revent A)) (instances : list (instance D)) : result (list (revent A)) :=
    loopM (fun acc v => match v with
                        | Unattached a b => if (a <=? b) && (b <=? length trace) then Ok (acc ++ firstn (b - a) (skipn a trace)) else rpanic
                        | Attached _ => Ok acc
                        end) (r_process 0 (length trace) instances) [].
  (** activity_instances.rs 643-665. *)
  Definition unattached_log (log : list (list (revent A))) (instances : list (list (instance D))) : result (list (list (revent A))) :=
    mapM (fun p => unattached_trace (fst p) (snd p)) (combine log instances).
End New.

(** substitute_underlying_events, activity_instances.rs 667-680; create_vector_of_underlying_events, lines 682-703, does the
    same with a vector. *)
Fixpoint substitute {A} (trace : list (revent A)) (e : revent A) : list (revent A) :=
  match e with
  | REvent _ (Some under) => (fix go (l : list (revent A)) (acc : list (revent A)) := match l with [] => acc | x :: r => go r (substitute acc x) end) under trace
  | REvent _ None => trace ++ [e]
  end.
(** The part of this name, pipelines/activities_parts.rs 430-447. *)
Definition substitute_log {A} (log : list (list (revent A))) : list (list (revent A)) := map (fun trace => fold_left substitute trace []) log.
(** create_vector_of_immediate_underlying_events, activity_instances.rs 705-717. *)
Definition immediate_events {A} (e : revent A) : list (revent A) := match ev_under e with Some under => under | None => [e] end.

(** count_underlying_events_for_event, activity_instances.rs 625-641. *)
Fixpoint count_event {A} (e : revent A) : nat :=
  match e with
  | REvent _ (Some under) => (fix go (l : list (revent A)) (n : nat) := match l with [] => n | x :: r => go r (n + count_event x) end) under 0
  | REvent _ None => 1
  end.
(** count_underlying_events, activity_instances.rs 608-623. *)
Definition count_underlying {A} (log : list (list (revent A))) : nat :=
  fold_left (fun n trace => n + fold_left (fun k e => k + count_event e) trace 0) log 0.
(** count_events, features/analysis/event_log_info.rs 266-268. *)
Definition count_events {A} (log : list (list A)) : nat := fold_left (fun n trace => n + length trace) log 0.

Section Logs.
  Context {A D : Type}.
  Variable name_of : A -> pystr.                (* event.name() *)

  (** The trace goes to the log of its activity, activity_instances.rs 505-511 and 544-551. *)
  Definition add_to_log (logs : dict pystr (list (list (revent A)))) (name : pystr) (trace : list (revent A)) : dict pystr (list (list (revent A))) :=
    match dget str_eq_dec logs name with
    | Some log => dset str_eq_dec logs name (log ++ [trace])
    | None => dset str_eq_dec logs name [trace]
    end.
  (** create_activities_logs_from_log, activity_instances.rs 494-517. *)
  Definition logs_from_log (log : list (list (revent A))) : dict pystr (list (list (revent A))) :=
    fold_left (fun logs trace => fold_left (fun logs e => match ev_under e with
                                                          | Some _ => add_to_log logs (name_of (ev_about e)) (substitute [] e)
                                                          | None => logs
                                                          end) trace logs) log [].

  Variables (level_of : D -> nat) (node_name : D -> pystr).
  (** activity_handler, activity_instances.rs 526-552. *)
  Definition handle_activity (level : nat) (trace : list (revent A)) (logs : dict pystr (list (list (revent A)))) (x : instance D) : result (dict pystr (list (list (revent A)))) :=
    if negb (level =? level_of (an_data (in_node x))) then Ok logs
    else bind (mapM (event_at trace) (range (in_start x) (in_start x + in_length x))) (fun events =>
         Ok (add_to_log logs (node_name (an_data (in_node x))) events)).
  (** create_log_from_traces_activities, activity_instances.rs 519-560. *)
  Definition logs_from_instances (log : list (list (revent A))) (activities : list (list (instance D))) (level : nat) : result (dict pystr (list (list (revent A)))) :=
    loopM (fun logs p =>
             loopM (fun logs v => match v with Attached x => handle_activity level (snd p) logs x | Unattached _ _ => Ok logs end)
                   (r_process 0 (length (snd p)) (fst p)) logs)
          (combine activities log) [].

  (** The name of one event, activity_instances.rs 583-597; [extract] is what regex.find gives: Some (start, end), or None
      without a match or when matching fails. *)
  Definition part_name (extract : option (pystr -> option (nat * nat))) (name : pystr) : pystr :=
    match extract with
    | Some find => match find name with Some (s, e) => if s =? 0 then firstn e name else name | None => name end
    | None => name
    end.
  (** create_activity_name, activity_instances.rs 562-606. *)
  Definition activity_name (extract : option (pystr -> option (nat * nat))) (log : list (list (revent A))) (r : repeat_set) : result pystr :=
    bind (SufModel.unwrap (nth_error log (rs_trace_index r))) (fun trace =>
    loopM (fun name i => bind (event_at trace i) (fun e =>
             Ok (name ++ str "(" ++ part_name extract (name_of (ev_about e)) ++ str ")" ++
                 (if negb (i =? rs_first_pos r + rs_length r - 1) then str "::" else []))))
          (range (rs_first_pos r) (rs_first_pos r + rs_length r)) []).
End Logs.
