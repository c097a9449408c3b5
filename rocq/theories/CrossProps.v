(** C79: a log the client writes to a file and the backend reads.
    C80: a log the backend writes to a file and the client reads. *)
From Coq Require Import Sorting.Sorted.
From Verif Require Import Py LogModel EqSpec HashModel XesModel XesSpec TightSpec WireModel RXesModel CrossModel CrossSpec
  CrossProofs1 CrossProofs2 CrossProofs3.

(** * C79 *)

(** Whatever the client can write is read by the backend: traces with something inside in their order; of
    their events those with an attribute in the file, a name and a time, each with its own values that the
    backend understands or else the declared ones; declared values of scopes that are not empty, extensions
    with prefix and uri, classifiers.  Properties of the log and attributes of traces do not arrive. *)
Theorem C79_read :
  forall (date f32 f64 : Type) (parse_date : pystr -> option date) (parse_f64 : pystr -> option f64)
    (parse_uuid : pystr -> option uuid) veq log o,
  held log -> client_to_backend f32 parse_date parse_f64 parse_uuid veq log = Ok o ->
  exists log', o = Fine log' /\
    traces_arrive date f32 f64 parse_date parse_f64 veq log (l_traces log) (x_traces log') /\
    globals_arrive date f32 f64 parse_date parse_f64 (l_globals log) (x_globals log') /\
    exts_arrive (l_extensions log) (x_exts log') /\
    Forall2 (fun nk c => et_escaped (fst nk) (xc_name c) /\ Forall2 et_escaped (snd nk) (xc_keys c))
      (l_classifiers log) (x_classifiers log') /\
    x_props log' = [].
Proof. exact C79_read_proof. Qed.
Print Assumptions C79_read.

(** The client can write the log exactly when declared values have types of XES and properties are texts. *)
Theorem C79_when :
  forall (date f32 f64 : Type) (parse_date : pystr -> option date) (parse_f64 : pystr -> option f64)
    (parse_uuid : pystr -> option uuid) veq log,
  (exists o : outcome (xlog date f32 f64), client_to_backend f32 parse_date parse_f64 parse_uuid veq log = Ok o) <->
  (forall n g k v, In (n, g) (l_globals log) -> In (k, v) g -> xes_type v) /\
  (forall k v, In (k, v) (l_properties log) -> exists s, v = VStr s).
Proof. exact C79_when_proof. Qed.
Print Assumptions C79_when.

(** It is not so that all attributes arrive: booleans are lost. *)
Theorem C79_booleans_refuted :
  forall (date f32 f64 : Type) (parse_date : pystr -> option date) (parse_f64 : pystr -> option f64)
    (parse_uuid : pystr -> option uuid) veq s d b,
  parse_date s = Some d -> exists log e (log' : xlog date f32 f64) e',
  held log /\ l_traces log = [mkTrace [e] []] /\ dget str_eq_dec e (str "done") = Some (VBool b) /\
  client_to_backend f32 parse_date parse_f64 parse_uuid veq log = Ok (Fine log') /\ x_traces log' = [[e']] /\ x_payload e' = [].
Proof. exact C79_booleans_proof. Qed.
Print Assumptions C79_booleans_refuted.

(** It is not so that events with a name and a time arrive: one that is as declared is lost. *)
Theorem C79_events_refuted :
  forall (date f32 f64 : Type) (parse_date : pystr -> option date) (parse_f64 : pystr -> option f64)
    (parse_uuid : pystr -> option uuid) veq e,
  (forall v, veq v v = true) -> is_dict e -> (forall k v, In (k, v) e -> xes_type v) -> e <> [] ->
  exists log (log' : xlog date f32 f64),
  held log /\ l_traces log = [mkTrace [e] []] /\
  client_to_backend f32 parse_date parse_f64 parse_uuid veq log = Ok (Fine log') /\ x_traces log' = [[]].
Proof. exact C79_default_event_proof. Qed.
Print Assumptions C79_events_refuted.

(** It is not so that the number of traces stays. *)
Theorem C79_traces_refuted :
  forall (date f32 f64 : Type) (parse_date : pystr -> option date) (parse_f64 : pystr -> option f64)
    (parse_uuid : pystr -> option uuid) veq,
  exists log (log' : xlog date f32 f64), held log /\ length (l_traces log) = 1 /\
  client_to_backend f32 parse_date parse_f64 parse_uuid veq log = Ok (Fine log') /\ x_traces log' = [].
Proof. exact C79_empty_trace_proof. Qed.
Print Assumptions C79_traces_refuted.

(** A log with quotes in a name, a declared value, a large integer, a boolean and a property. *)
Definition c79_event : event :=
  [(str "concept:name", VStr (str "a<b")); (str "time:timestamp", VDate (str "t1")); (str "cost", VInt 5);
   (str "big", VInt (2 ^ 64)); (str "ok", VBool true)].
Definition c79_log : eventlog :=
  mkLog [mkTrace [c79_event; [(str "cost", VInt 5)]] [(str "concept:name", VStr (str "t"))]; mkTrace [] []] []
    [(str "Concept", [(str "prefix", str "c&"); (str "uri", str "u")]); (str "Bare", [(str "prefix", str "b")])]
    [(str "Activity", [str "concept:name"; str "x>y"])] [(str "source", VStr (str "here"))]
    [(str "event", [(str "org", VStr (str "none"))]); (str "trace", [])].
Definition c79_veq (a b : value) : bool := false.
Example C79_read_case :
  client_to_backend pystr (fun s => Some s) (fun s => Some s) (fun _ => None) c79_veq c79_log =
  Ok (Fine (mkXLog [[mkXEvent (str "a<b") (str "t1") [(str "org", PString (str "none")); (str "cost", PInt64 5)]]]
       [(str "event", [(str "org", PString (str "none"))])]
       [mkXExt (str "Concept") (str "c&amp;") (str "u")] [mkXCls (str "Activity") [str "concept:name"; str "x&gt;y"]] [])).
Proof. vm_compute. reflexivity. Qed.
Example C79_held_case : held c79_log.
Proof.
  constructor; unfold c79_log; cbn [l_attrs l_extensions l_classifiers l_globals l_traces].
  - constructor.
  - intros n c [E|[E|[]]]; injection E as <- <-; (split; [repeat constructor; cbn; intuition discriminate|cbn; intuition discriminate]).
  - intros n ks [E|[]]. injection E as <- <-. split; [discriminate|]. intros k [<-|[<-|[]]]; cbn; intuition discriminate.
  - repeat constructor; cbn; intuition discriminate.
  - intros n g [E|[E|[]]]; injection E as <- <-; repeat constructor; cbn; intuition discriminate.
  - intros t e [<-|[<-|[]]]; [intros [<-|[<-|[]]]|intros []]; repeat constructor; cbn; intuition discriminate.
Qed.

(** * C80 *)

(** The client reads the file exactly when each date, time stamp and float of a property or an event is one
    the client can parse; otherwise it fails with the error of one of them, and the whole log is lost. *)
Theorem C80_when :
  forall (date f32 f64 : Type) (show_date : date -> pystr) (show_f32 : f32 -> pystr) (show_f64 : f64 -> pystr)
    (parse_float parse_datetime : pystr -> result pystr) log,
  (exists log', backend_to_client show_date show_f32 show_f64 parse_float parse_datetime log = Ok log') <->
  (forall v, value_of date f32 f64 log v -> exists o, taken date f32 f64 show_date show_f32 show_f64 parse_float parse_datetime v (Ok o)).
Proof. exact C80_when_proof. Qed.
Print Assumptions C80_when.
Theorem C80_error :
  forall (date f32 f64 : Type) (show_date : date -> pystr) (show_f32 : f32 -> pystr) (show_f64 : f64 -> pystr)
    (parse_float parse_datetime : pystr -> result pystr) log e,
  backend_to_client show_date show_f32 show_f64 parse_float parse_datetime log = Err e ->
  exists v, value_of date f32 f64 log v /\ taken date f32 f64 show_date show_f32 show_f64 parse_float parse_datetime v (Err e).
Proof. exact C80_error_proof. Qed.
Print Assumptions C80_error.

(** What is read: traces with events in their order, and each event with what the client makes of its
    values, or else the declared texts; declared values as texts; extensions, classifiers, and properties
    sorted by name. *)
Theorem C80_read :
  forall (date f32 f64 : Type) (show_date : date -> pystr) (show_f32 : f32 -> pystr) (show_f64 : f64 -> pystr)
    (parse_float parse_datetime : pystr -> result pystr) log,
  fair date f32 f64 log -> forall log',
  backend_to_client show_date show_f32 show_f64 parse_float parse_datetime log = Ok log' ->
  l_attrs log' = [] /\
  Forall2 (trace_taken date f32 f64 show_date show_f32 show_f64 parse_float parse_datetime log)
    (filter (fun es => negb (length es =? 0)) (x_traces log)) (l_traces log') /\
  (forall s, match dget str_eq_dec (x_globals log) s with
             | Some d => exists d', dget str_eq_dec (l_globals log') s = Some d' /\
                 forall k, text_at date f32 f64 show_date show_f32 show_f64 d k (dget str_eq_dec d' k)
             | None => dget str_eq_dec (l_globals log') s = None
             end) /\
  Forall2 (fun x nc => fst nc = xe_name x /\ exists p u, flat (xe_prefix x) p /\ flat (xe_uri x) u /\
             snd nc = [(str "prefix", p); (str "uri", u)]) (x_exts log) (l_extensions log') /\
  l_classifiers log' = map (fun c => (xc_name c, xc_keys c)) (x_classifiers log) /\
  (forall k, taken_at date f32 f64 show_date show_f32 show_f64 parse_float parse_datetime (x_props log) k
               (dget str_eq_dec (l_properties log') k)) /\
  StronglySorted (fun a b => str_leb a b = true) (dkeys (l_properties log')).
Proof. exact C80_read_proof'. Qed.
Print Assumptions C80_read.

(** Of each value the client makes exactly one thing. *)
Theorem C80_values :
  forall (date f32 f64 : Type) (show_date : date -> pystr) (show_f32 : f32 -> pystr) (show_f64 : f64 -> pystr)
    (parse_float parse_datetime : pystr -> result pystr) v,
  exists r, taken date f32 f64 show_date show_f32 show_f64 parse_float parse_datetime v r /\
  forall r', taken date f32 f64 show_date show_f32 show_f64 parse_float parse_datetime v r' -> r' = r.
Proof. exact C80_values_proof. Qed.
Print Assumptions C80_values.

(** Texts arrive on one line, and unchanged exactly when they were on one line. *)
Theorem C80_flat :
  forall s, exists t, flat s t /\ (forall t', flat s t' -> t' = t) /\ one_line t /\ (s = t <-> one_line s).
Proof. exact C80_flat_proof. Qed.
Print Assumptions C80_flat.

(** It is not so that booleans arrive as they were. *)
Theorem C80_booleans_refuted :
  forall (date f32 f64 : Type) (show_date : date -> pystr) (show_f32 : f32 -> pystr) (show_f64 : f64 -> pystr)
    (parse_float parse_datetime : pystr -> result pystr),
  exists log log', fair date f32 f64 log /\ x_props log = [(str "ok", PBool false)] /\
  backend_to_client show_date show_f32 show_f64 parse_float parse_datetime log = Ok log' /\ l_properties log' = [(str "ok", VBool true)].
Proof. exact C80_false_proof. Qed.
Print Assumptions C80_booleans_refuted.

(** It is not so that all attributes arrive: identifiers are lost. *)
Theorem C80_ids_refuted :
  forall (date f32 f64 : Type) (show_date : date -> pystr) (show_f32 : f32 -> pystr) (show_f64 : f64 -> pystr)
    (parse_float parse_datetime : pystr -> result pystr) u,
  exists log log', fair date f32 f64 log /\ x_props log = [(str "id", PGuid u)] /\
  backend_to_client show_date show_f32 show_f64 parse_float parse_datetime log = Ok log' /\ l_properties log' = [].
Proof. exact C80_ids_proof. Qed.
Print Assumptions C80_ids_refuted.

(** Events with a declared value, a text over two lines and a boolean, an empty trace, and properties out of order. *)
Definition c80_log : xlog pystr pystr pystr :=
  mkXLog [[mkXEvent (97 :: 13 :: 10 :: 98 :: nil)%N (str "t1") [(str "ok", PBool false); (str "n", PInt32 (-3))]]; []]
    [(str "event", [(str "org", PInt64 7); (str "ok", PString (str "no"))]); (str "trace", [])]
    [mkXExt (str "Concept") (str "c&") (str "u")] [mkXCls (str "Activity") [str "concept:name"; str "x"]]
    [(str "b", PFloat64 (str "0.5")); (str "a", PLifecycle (str "l")); (str "c", PGuid 1)].
Example C80_read_case :
  backend_to_client (fun s => s) (fun s => s) (fun s => s) (fun s => Ok s) (fun s => Ok s) c80_log =
  Ok (mkLog [mkTrace [[(str "ok", VBool true); (str "org", VStr (str "7")); (str "concept:name", VStr (97 :: 32 :: 98 :: nil)%N);
                       (str "time:timestamp", VDate (str "t1")); (str "n", VInt (-3))]] []]
       [] [(str "Concept", [(str "prefix", str "c&"); (str "uri", str "u")])]
       [(str "Activity", [str "concept:name"; str "x"])] [(str "a", VStr (str "l")); (str "b", VFloat (str "0.5"))]
       [(str "event", [(str "ok", VStr (str "no")); (str "org", VStr (str "7"))]); (str "trace", [])]).
Proof. vm_compute. reflexivity. Qed.
Example C80_error_case :
  backend_to_client (fun s => s) (fun s => s) (fun s => s) (fun s => Ok s) (fun s => Err ValueError) c80_log = Err ValueError.
Proof. vm_compute. reflexivity. Qed.
Example C80_fair_case : fair pystr pystr pystr c80_log.
Proof.
  assert (L : forall s, forallb (fun c => negb (existsb (N.eqb c) [9; 10; 13]%N)) s = true -> one_line s).
  { intros s H c Hc A. rewrite forallb_forall in H. specialize (H c Hc). apply Bool.negb_true_iff in H.
    assert (existsb (N.eqb c) [9; 10; 13]%N = true) by (apply existsb_exists; exists c; split; [exact A|apply N.eqb_refl]). congruence. }
  constructor; unfold c80_log; cbn [x_exts x_classifiers x_props x_globals x_traces].
  - constructor; cbn [x_exts x_classifiers x_props x_globals x_traces].
    + repeat constructor; cbn; intuition discriminate.
    + intros s d [E|[E|[]]]; injection E as <- <-; repeat constructor; cbn; intuition discriminate.
    + intros es e [<-|[<-|[]]]; [intros [<-|[]]|intros []]. split; [repeat constructor; cbn; intuition discriminate|]. split; cbn; intuition discriminate.
    + intros c [<-|[]]. split; [discriminate|]. intros k [<-|[<-|[]]]; cbn; intuition discriminate.
  - split; [repeat constructor; intros []|]. intros x [<-|[]]. apply L. reflexivity.
  - split; [repeat constructor; intros []|]. intros c [<-|[]]. split; [apply L; reflexivity|]. intros k [<-|[<-|[]]]; apply L; reflexivity.
  - split; [repeat constructor; cbn; intuition discriminate|]. intros k [<-|[<-|[<-|[]]]]; apply L; reflexivity.
  - intros s d [E|[E|[]]]; injection E as <- <-; (split; [apply L; reflexivity|]); [intros k [<-|[<-|[]]]; apply L; reflexivity|intros k []].
  - intros es e k [<-|[<-|[]]]; [intros [<-|[]]|intros []]. intros [<-|[<-|[]]]; apply L; reflexivity.
Qed.
