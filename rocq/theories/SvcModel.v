(** The service of the backend over time: many executions at once, their streams, and the contexts kept
    (src/rust/ficus_backend/src, paths below relative to it).

    Each execution is a task of its own (spawn_blocking) that sends into a channel of its own; what is
    shared is the table of contexts behind a mutex.  One step of the model is one send, one receive or
    one section under the mutex, so a list of steps is one interleaving of all tasks and clients.
    Simplified: the bytes in flight between the channel and the client are part of the client. *)
From Verif Require Import Py WireModel BackendModel.

(** mpsc::channel(4), grpc/backend_service.rs 141. *)
Definition channel_capacity : nat := 4.

(** Where a task stands, grpc/backend_service.rs 143-163: the messages its pipeline still has to send and
    how the pipeline ends; the final result still to be sent; done (the sender is dropped). *)
Inductive phase :=
| Running (todo : list gmessage) (s : step)
| Announcing (f : gfinal)
| Ended.

(** An execution: its task, the channel, whether the receiver still exists, and what the client has
    taken from the stream so far.  grpc/backend_service.rs 141-165. *)
Record conn := mkConn { c_phase : phase; c_queue : list gmessage; c_open : bool; c_got : list gmessage }.

(** FicusService, grpc/backend_service.rs 42-46: the contexts; and all executions in the order of their
    requests. *)
Record service := mkService { sv_conns : list conn; sv_contexts : dict pystr userdata }.
(** FicusService::new, grpc/backend_service.rs 48-56. *)
Definition new_service : service := mkService [] [].

(** What can happen next: a request, one step of a task, a client taking a message, a client that drops
    its stream, and the two other calls.  grpc/backend_service.rs 133-203. *)
Inductive act :=
| Request (rq : grequest)
| Work (i : nat)
| Receive (i : nat)
| Close (i : nat)
| Get (guid key : pystr)
| Drop (guid : pystr).

(** GrpcGetContextValueResult, protos/backend_service.proto 54-59. *)
Inductive got := GotValue (v : gvalue) | GotError (message : pystr).
(** What a call returns at once.  grpc/backend_service.rs 165, 190, 198-201; a drop says whether the
    session existed (Status::not_found). *)
Inductive answer := AStream | AQuiet | AMessage (m : gmessage) | AGot (r : got) | ADropped (found : bool).

(** [l[i] = x].  Vec of executions (see [service]); grpc/backend_service.rs 143. *)
Fixpoint set_nth {A} (i : nat) (x : A) (l : list A) : list A :=
  match l, i with
  | [], _ => []
  | _ :: l', 0 => x :: l'
  | y :: l', S i' => y :: set_nth i' x l'
  end.

(** get_context_value, grpc/backend_service.rs 168-190, with try_convert_context_value 292-304.  The
    conversion leaves out the keys which [value_grpc] leaves out. *)
Definition get_context_value (contexts : dict pystr userdata) (guid key : pystr) : got :=
  match find_key key with
  | None => GotError (str "Failed to find key for key name")
  | Some _ =>
      match dget str_eq_dec contexts guid with
      | None => GotError (str "Failed to get context for guid")
      | Some ctx =>
          match dget str_eq_dec ctx key with
          | None => GotError (str "Failed to find context value for key")
          | Some v =>
              match value_grpc key v with
              | Some g => GotValue g
              | None => GotError (str "Can not convert context value to grpc model")
              end
          end
      end
  end.

Section Service.
  (** The executor of a registered part, and the text of a missing key, as in BackendModel. *)
  Variable run : pystr -> userdata -> userdata -> list gmessage * step.
  Variable missing : pystr -> pystr.
  (** Uuid::new_v4 of each execution, grpc/backend_service.rs 209. *)
  Variable guid : nat -> pystr.

  (** execute_grpc_pipeline up to its result, grpc/backend_service.rs 206-218: all it would send while
      the client listens, and how it ends. *)
  Definition pipeline_of (rq : grequest) : list gmessage * step :=
    match read_parts read_part (rq_pipeline rq) with
    | Err _ => ([], Panicked)
    | Ok parts =>
        match initial_context (rq_context rq) [] with
        | Err _ => ([], Panicked)
        | Ok ctx => run_pipeline run missing parts ctx
        end
    end.

  (** LogMessageHandlerImpl::handle, grpc/logs_handler.rs 18-27: the error when nobody listens. *)
  Definition log_error (message : pystr) : pystr := str "Failed to send log message: " ++ message.

  (** One step of a task; None when it blocks in blocking_send or has ended.
      grpc/backend_service.rs 143-163; sends of part results ignore a closed channel
      (grpc/get_context_pipeline.rs 69-76, backend_service.rs 152-155, 158-161), log messages turn it
      into an error that ends the pipeline (grpc/logs_handler.rs 18-27,
      utils/performance/performance_cookie.rs 7-21). *)
  Definition work (i : nat) (c : conn) (contexts : dict pystr userdata) : option (conn * dict pystr userdata) :=
    match c_phase c with
    | Running (m :: rest) s =>
        if c_open c then
          if length (c_queue c) <? channel_capacity
          then Some (mkConn (Running rest s) (c_queue c ++ [m]) true (c_got c), contexts)
          else None
        else
          let next := match m with MLog text => Running [] (Failed (log_error text)) | _ => Running rest s end in
          Some (mkConn next (c_queue c) false (c_got c), contexts)
    | Running [] (Done ctx) =>
        Some (mkConn (Announcing (FSuccess (guid i))) (c_queue c) (c_open c) (c_got c),
              dset str_eq_dec contexts (guid i) ctx)
    | Running [] (Failed e) => Some (mkConn (Announcing (FError e)) (c_queue c) (c_open c) (c_got c), contexts)
    | Running [] Panicked => Some (mkConn Ended (c_queue c) (c_open c) (c_got c), contexts)
    | Announcing f =>
        if c_open c then
          if length (c_queue c) <? channel_capacity
          then Some (mkConn Ended (c_queue c ++ [MFinal f]) true (c_got c), contexts)
          else None
        else Some (mkConn Ended (c_queue c) false (c_got c), contexts)
    | Ended => None
    end.

  (** One step of everything; None when it cannot happen now.  grpc/backend_service.rs 133-203. *)
  Definition act_step (s : service) (a : act) : option (service * answer) :=
    match a with
    | Request rq =>
        let '(msgs, st) := pipeline_of rq in
        Some (mkService (sv_conns s ++ [mkConn (Running msgs st) [] true []]) (sv_contexts s), AStream)
    | Work i =>
        match nth_error (sv_conns s) i with
        | None => None
        | Some c =>
            match work i c (sv_contexts s) with
            | None => None
            | Some (c', contexts) => Some (mkService (set_nth i c' (sv_conns s)) contexts, AQuiet)
            end
        end
    | Receive i =>
        match nth_error (sv_conns s) i with
        | Some (mkConn p (m :: q) true g) =>
            Some (mkService (set_nth i (mkConn p q true (g ++ [m])) (sv_conns s)) (sv_contexts s), AMessage m)
        | _ => None
        end
    | Close i =>
        match nth_error (sv_conns s) i with
        | Some (mkConn p _ true g) => Some (mkService (set_nth i (mkConn p [] false g) (sv_conns s)) (sv_contexts s), AQuiet)
        | _ => None
        end
    | Get g k => Some (s, AGot (get_context_value (sv_contexts s) g k))
    | Drop g =>
        (* drop_execution_result, grpc/backend_service.rs 193-203 *)
        Some (mkService (sv_conns s) (ddel str_eq_dec (sv_contexts s) g), ADropped (dmem str_eq_dec (sv_contexts s) g))
    end.

  (** An interleaving from a state, with the answers in order.  grpc/backend_service.rs 133-203. *)
  Fixpoint acts_run (l : list act) (s : service) : option (service * list answer) :=
    match l with
    | [] => Some (s, [])
    | a :: l' =>
        match act_step s a with
        | None => None
        | Some (s', r) => match acts_run l' s' with Some (s'', rs) => Some (s'', r :: rs) | None => None end
        end
    end.
End Service.
