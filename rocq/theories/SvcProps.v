(** C75: the backend as a service with many clients at once, under any schedule. *)
From Verif Require Import Py WireModel BackendModel SvcModel SvcSpec SvcProofs.

(** What a client has received is always the start of the stream its request would get from a backend of
    its own; when its execution is over, nothing is waiting and it did not hang up, it is all of it. *)
Theorem C75_stream :
  forall run missing guid h s answers i rq,
  acts_run run missing guid h new_service = Some (s, answers) -> nth_error (requests h) i = Some rq ->
  starts (received i h answers) (fst (serve run missing (guid i) rq)) /\
  (over s i -> ~ In (Close i) h -> act_step run missing guid s (Receive i) = None ->
   received i h answers = fst (serve run missing (guid i) rq)).
Proof. exact stream_proof. Qed.
Print Assumptions C75_stream.

(** A client that was told of success was told its own identifier, and as long as nobody dropped it, the
    context of its own execution is there: each key is answered from it, and a drop finds it. *)
Theorem C75_success_can_be_read :
  forall run missing guid, (forall i j, guid i = guid j -> i = j) ->
  forall h s answers i rq g,
  (forall name config c f, ~ In (MFinal f) (fst (run name config c))) ->
  acts_run run missing guid h new_service = Some (s, answers) -> nth_error (requests h) i = Some rq ->
  In (MFinal (FSuccess g)) (received i h answers) ->
  g = guid i /\ exists ctx, snd (serve run missing g rq) = Some ctx /\
  (~ In (Drop g) h ->
    (forall key, exists r, act_step run missing guid s (Get g key) = Some (s, AGot r) /\ told (Some ctx) key r) /\
    (exists s', act_step run missing guid s (Drop g) = Some (s', ADropped true))).
Proof. exact success_proof. Qed.
Print Assumptions C75_success_can_be_read.

(** Whatever is asked at whatever time, the answer comes from the context of the execution with that
    identifier, which succeeded, or says that there is none. *)
Theorem C75_answers_come_from_its_execution :
  forall run missing guid, (forall i j, guid i = guid j -> i = j) ->
  forall h s answers g key,
  acts_run run missing guid h new_service = Some (s, answers) ->
  exists r, act_step run missing guid s (Get g key) = Some (s, AGot r) /\
  (told None key r \/
   exists i rq ctx, guid i = g /\ nth_error (requests h) i = Some rq /\
     snd (serve run missing g rq) = Some ctx /\ told (Some ctx) key r).
Proof. exact origin_proof. Qed.
Print Assumptions C75_answers_come_from_its_execution.

(** A drop that is answered with true was of a successful execution, and from then on nothing is found
    under that identifier, by reading or by dropping. *)
Theorem C75_dropped_for_good :
  forall run missing guid, (forall i j, guid i = guid j -> i = j) ->
  forall h1 h2 g s a1 a2,
  acts_run run missing guid (h1 ++ Drop g :: h2) new_service = Some (s, a1 ++ ADropped true :: a2) -> length a1 = length h1 ->
  (exists i rq ctx, guid i = g /\ nth_error (requests h1) i = Some rq /\ snd (serve run missing g rq) = Some ctx) /\
  (forall key, exists r, act_step run missing guid s (Get g key) = Some (s, AGot r) /\ told None key r) /\
  (exists s', act_step run missing guid s (Drop g) = Some (s', ADropped false)).
Proof. exact drop_proof. Qed.
Print Assumptions C75_dropped_for_good.

(** An execution that is not over can go on, or its client has something to receive. *)
Theorem C75_never_stuck :
  forall run missing guid h s answers i rq,
  acts_run run missing guid h new_service = Some (s, answers) -> nth_error (requests h) i = Some rq ->
  over s i \/ act_step run missing guid s (Work i) <> None \/ act_step run missing guid s (Receive i) <> None.
Proof. exact no_deadlock_proof. Qed.
Print Assumptions C75_never_stuck.

(** From any moment, some steps of an execution and its client alone bring it to the end, and give the
    client that did not hang up all of its stream. *)
Theorem C75_can_finish_alone :
  forall run missing guid h s answers i rq,
  acts_run run missing guid h new_service = Some (s, answers) -> nth_error (requests h) i = Some rq ->
  exists h' s' answers', Forall (fun a => a = Work i \/ a = Receive i) h' /\
    acts_run run missing guid (h ++ h') new_service = Some (s', answers') /\ over s' i /\
    (~ In (Close i) h -> received i (h ++ h') answers' = fst (serve run missing (guid i) rq)).
Proof. exact finish_proof. Qed.
Print Assumptions C75_can_finish_alone.

(** No schedule makes an execution go on for ever: it takes at most two steps more than it has messages. *)
Theorem C75_bounded_work :
  forall run missing guid h s answers i rq,
  acts_run run missing guid h new_service = Some (s, answers) -> nth_error (requests h) i = Some rq ->
  length (filter (fun a => match a with Work j => i =? j | _ => false end) h) <= length (fst (serve run missing (guid i) rq)) + 2.
Proof. exact work_bound_proof. Qed.
Print Assumptions C75_bounded_work.

(** Clients do not disturb each other: what a client received, whether its execution is over and what it
    can do next depend only on its request and on the steps of its own execution and client. *)
Theorem C75_isolated :
  forall run missing guid h1 h2 s1 s2 r1 r2 i rq,
  acts_run run missing guid h1 new_service = Some (s1, r1) -> acts_run run missing guid h2 new_service = Some (s2, r2) ->
  nth_error (requests h1) i = Some rq -> nth_error (requests h2) i = Some rq ->
  filter (concerns i) h1 = filter (concerns i) h2 ->
  received i h1 r1 = received i h2 r2 /\ (over s1 i <-> over s2 i) /\
  (forall a, concerns i a = true -> (act_step run missing guid s1 a = None <-> act_step run missing guid s2 a = None)).
Proof. exact isolation_proof. Qed.
Print Assumptions C75_isolated.

(** When no log message is left to send after what the client received, hanging up does not stop the
    execution: its context stays until somebody drops it. *)
Theorem C75_left_behind :
  forall run missing guid, (forall i j, guid i = guid j -> i = j) ->
  forall h s answers i rq ctx,
  acts_run run missing guid h new_service = Some (s, answers) -> nth_error (requests h) i = Some rq -> over s i ->
  snd (serve run missing (guid i) rq) = Some ctx -> ~ In (Drop (guid i)) h ->
  (forall pre text post, fst (serve run missing (guid i) rq) <> received i h answers ++ pre ++ MLog text :: post) ->
  forall key, exists r, act_step run missing guid s (Get (guid i) key) = Some (s, AGot r) /\ told (Some ctx) key r.
Proof. exact left_behind_proof. Qed.
Print Assumptions C75_left_behind.

(** When a log message lies more than four messages behind the last one received, nothing is kept: so
    hanging up there leaves nothing behind. *)
Theorem C75_nothing_left :
  forall run missing guid, (forall i j, guid i = guid j -> i = j) ->
  forall h s answers i rq r text post,
  acts_run run missing guid h new_service = Some (s, answers) -> nth_error (requests h) i = Some rq ->
  fst (serve run missing (guid i) rq) = received i h answers ++ r ++ MLog text :: post -> 4 <= length r ->
  forall key, exists x, act_step run missing guid s (Get (guid i) key) = Some (s, AGot x) /\ told None key x.
Proof. exact not_kept_proof. Qed.
Print Assumptions C75_nothing_left.

(** * A case *)

(** A backend whose parts write one line and set one value; identifiers are strings of one character. *)
Definition svc_run (name : pystr) (config ctx : userdata) : list gmessage * step :=
  ([MLog name], Done (dset str_eq_dec ctx (str "path") (VString name))).
Definition svc_guid (i : nat) : pystr := [N.of_nat i].
Definition svc_request : grequest :=
  mkReq [GDefault (str "ReadLogFromXes") []; GSimple (str "path") (uuid_str 7)] [].

(** When all clients have hung up and all executions are over, something can still be kept. *)
Theorem C75_nothing_kept_for_nobody_refuted :
  exists run missing guid h s answers,
  (forall i j, guid i = guid j -> i = j) /\
  acts_run run missing guid h new_service = Some (s, answers) /\
  (forall i rq, nth_error (requests h) i = Some rq -> over s i /\ In (Close i) h) /\
  exists g key v, act_step run missing guid s (Get g key) = Some (s, AGot (GotValue v)).
Proof.
  set (h := [Request svc_request; Work 0; Receive 0; Close 0; Work 0; Work 0; Work 0]).
  destruct (acts_run svc_run (fun k => k) svc_guid h new_service) as [[s answers]|] eqn:E; [|vm_compute in E; discriminate].
  exists svc_run, (fun k => k), svc_guid, h, s, answers.
  split; [intros i j X; injection X as X; lia|]. split; [exact E|].
  vm_compute in E. injection E as <- <-. split.
  - intros [|[|i]] rq X; try discriminate. split; [|cbn; auto 8]. eexists. split; reflexivity.
  - exists (svc_guid 0), (str "path"), (GString (str "ReadLogFromXes")). vm_compute. reflexivity.
Qed.
Print Assumptions C75_nothing_kept_for_nobody_refuted.

(** Two clients at once; the second one hangs up before its execution starts, which so ends with an error
    and keeps nothing; the first one receives everything, reads its value and drops it. *)
Definition svc_history : list act :=
  [Request svc_request; Request svc_request; Work 0; Close 1; Work 1; Receive 0; Work 0; Work 1; Work 0; Work 1; Work 0;
   Receive 0; Receive 0; Get (svc_guid 0) (str "path"); Get (svc_guid 1) (str "path"); Drop (svc_guid 0); Drop (svc_guid 0);
   Get (svc_guid 0) (str "path")].
Example C75_example :
  match acts_run svc_run (fun k => k) svc_guid svc_history new_service with
  | Some (s, answers) =>
      over s 0 /\ over s 1 /\ received 1 svc_history answers = [] /\
      received 0 svc_history answers =
        [MLog (str "ReadLogFromXes"); MPart (uuid_str 7) [(str "path", GString (str "ReadLogFromXes"))]; MFinal (FSuccess (svc_guid 0))] /\
      skipn 13 answers =
        [AGot (GotValue (GString (str "ReadLogFromXes"))); AGot (GotError (str "Failed to get context for guid"));
         ADropped true; ADropped false; AGot (GotError (str "Failed to get context for guid"))]
  | None => False
  end.
Proof. vm_compute. split; [eexists; split; reflexivity|]. split; [eexists; split; reflexivity|]. repeat split. Qed.
Example C75_example_hypotheses :
  (forall i j, svc_guid i = svc_guid j -> i = j) /\
  (forall name config c f, ~ In (MFinal f) (fst (svc_run name config c))).
Proof. split; [intros i j X; injection X as X; lia|]. intros name config c f [H|[]]. discriminate. Qed.
(** A stream longer than the channel: the execution waits for its client. *)
Definition svc_long : grequest := mkReq (repeat (GSimple (str "path") (uuid_str 7)) 6 ++ [GDefault (str "ReadLogFromXes") []]) [(str "path", GString (str "p"))].
Example C75_waits :
  match acts_run svc_run (fun k => k) svc_guid [Request svc_long; Work 0; Work 0; Work 0; Work 0] new_service with
  | Some (s, _) => act_step svc_run (fun k => k) svc_guid s (Work 0) = None /\ act_step svc_run (fun k => k) svc_guid s (Receive 0) <> None
  | None => False
  end /\
  (exists r text post, fst (serve svc_run (fun k => k) (svc_guid 0) svc_long) = [] ++ r ++ MLog text :: post /\ 4 <= length r).
Proof.
  split; [vm_compute; split; [reflexivity|discriminate]|].
  eexists (repeat _ 6), _, _. split; [vm_compute; reflexivity|]. rewrite repeat_length. lia.
Qed.
