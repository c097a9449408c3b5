(** Vocabulary for C79 and C80: logs written by one program and read by the other. *)
From Coq Require Import Sorting.Permutation.
From Verif Require Import Py LogModel EqSpec XesModel XesSpec TightSpec WireModel RXesModel.
From Verif Require RXesSpec.

(** * Escapes of xml.etree *)
Inductive et_escaped : pystr -> pystr -> Prop :=
| et_nil : et_escaped [] []
| et_same c s t : ~ In c [34; 38; 60; 62; 9; 10; 13]%N -> et_escaped s t -> et_escaped (c :: s) (c :: t)
| et_lt s t : et_escaped s t -> et_escaped (60%N :: s) (str "&lt;" ++ t)
| et_gt s t : et_escaped s t -> et_escaped (62%N :: s) (str "&gt;" ++ t)
| et_amp s t : et_escaped s t -> et_escaped (38%N :: s) (str "&amp;" ++ t)
| et_quot s t : et_escaped s t -> et_escaped (34%N :: s) (str "&quot;" ++ t)
| et_tab s t : et_escaped s t -> et_escaped (9%N :: s) (str "&#09;" ++ t)
| et_line s t : et_escaped s t -> et_escaped (10%N :: s) (str "&#10;" ++ t)
| et_return s t : et_escaped s t -> et_escaped (13%N :: s) (str "&#13;" ++ t).

(** * From the client to the backend *)
Section ToBackend.
  Variables date f32 f64 : Type.
  Variables (parse_date : pystr -> option date) (parse_f64 : pystr -> option f64).
  Variable veq : value -> value -> bool.
  Notation pval := (pval date f32 f64).
  Notation xevent := (xevent date f32 f64).

  (** What the backend makes of a value of the client: booleans and large integers are not understood. *)
  Definition understood (v : value) : option pval :=
    match v with
    | VStr s => Some (PString s)
    | VDate s => option_map PDate (parse_date s)
    | VInt z => if ((- 2 ^ 63 <=? z) && (z <? 2 ^ 63))%Z then Some (PInt64 z) else None
    | VFloat s => option_map PFloat64 (parse_f64 s)
    | VBool _ | VEvents _ | VActs _ | VOpaque _ => None
    end.
  (** The attribute is in the file: its type has a tag, and it is not the declared default. *)
  Definition in_file (log : eventlog) (scope k : pystr) (v : value) : Prop :=
    xes_type v /\ declared veq (l_globals log) scope k v = false.
  (** The value of an attribute of the event in the file. *)
  Definition own (log : eventlog) (e : event) (k : pystr) : option pval :=
    match dget str_eq_dec e k with
    | Some v => if declared veq (l_globals log) (str "event") k v then None else understood v
    | None => None
    end.
  (** The value the file declares for events. *)
  Definition fallback (log : eventlog) (k : pystr) : option pval :=
    match dget str_eq_dec (l_globals log) (str "event") with
    | Some d => match dget str_eq_dec d k with Some v => understood v | None => None end
    | None => None
    end.
  Definition a_text (o : option pval) : option pystr := match o with Some (PString s) => Some s | _ => None end.
  Definition a_date (o : option pval) : option date := match o with Some (PDate d) => Some d | _ => None end.
  Definition first_of {A} (a b : option A) : option A := match a with Some x => Some x | None => b end.
  (** Name and time of the event for the backend. *)
  Definition name_read (log : eventlog) (e : event) : option pystr :=
    first_of (a_text (own log e (str "concept:name"))) (a_text (fallback log (str "concept:name"))).
  Definition time_read (log : eventlog) (e : event) : option date :=
    first_of (a_date (own log e (str "time:timestamp"))) (a_date (fallback log (str "time:timestamp"))).
  (** No attribute of the event is in the file. *)
  Definition blank (log : eventlog) (e : event) : Prop :=
    forall k v, In (k, v) e -> ~ in_file log (str "event") k v.

  (** [arrives log e e']: the backend reads [e'] for [e]. *)
  Definition arrives (log : eventlog) (e : event) (e' : xevent) : Prop :=
    ~ blank log e /\ name_read log e = Some (x_name e') /\ time_read log e = Some (x_time e') /\
    ~ In (str "concept:name") (dkeys (x_payload e')) /\ ~ In (str "time:timestamp") (dkeys (x_payload e')) /\
    forall k, k <> str "concept:name" -> k <> str "time:timestamp" ->
      dget str_eq_dec (x_payload e') k = first_of (own log e k) (fallback log k).
  (** The backend does not read the event. *)
  Definition dropped (log : eventlog) (e : event) : Prop :=
    blank log e \/ name_read log e = None \/ time_read log e = None.
  Inductive events_arrive (log : eventlog) : list event -> list xevent -> Prop :=
  | arrive_nil : events_arrive log [] []
  | arrive_kept e e' l l' : arrives log e e' -> events_arrive log l l' -> events_arrive log (e :: l) (e' :: l')
  | arrive_lost e l l' : dropped log e -> events_arrive log l l' -> events_arrive log (e :: l) l'.
  (** The element of the trace has something inside. *)
  Definition trace_in_file (log : eventlog) (t : trace) : Prop :=
    t_events t <> [] \/ exists k v, In (k, v) (t_attrs t) /\ in_file log (str "trace") k v.
  Inductive traces_arrive (log : eventlog) : list trace -> list (list xevent) -> Prop :=
  | ta_nil : traces_arrive log [] []
  | ta_kept t es ts l : trace_in_file log t -> events_arrive log (t_events t) es -> traces_arrive log ts l ->
      traces_arrive log (t :: ts) (es :: l)
  | ta_lost t ts l : ~ trace_in_file log t -> traces_arrive log ts l -> traces_arrive log (t :: ts) l.

  (** Extensions with a prefix and a uri. *)
  Inductive exts_arrive : dict pystr (dict pystr pystr) -> list xext -> Prop :=
  | xa_nil : exts_arrive [] []
  | xa_kept n c l x xs p u : dget str_eq_dec c (str "prefix") = Some p -> dget str_eq_dec c (str "uri") = Some u ->
      et_escaped n (xe_name x) -> et_escaped p (xe_prefix x) -> et_escaped u (xe_uri x) ->
      exts_arrive l xs -> exts_arrive ((n, c) :: l) (x :: xs)
  | xa_lost n c l xs : dget str_eq_dec c (str "prefix") = None \/ dget str_eq_dec c (str "uri") = None ->
      exts_arrive l xs -> exts_arrive ((n, c) :: l) xs.

  (** The declared values of a scope that is not empty arrive under the raw text of the scope. *)
  Definition globals_arrive (gs : dict pystr (dict pystr value)) (gs' : dict pystr (dict pystr pval)) : Prop :=
    (forall t, In t (dkeys gs') -> exists s d, In (s, d) gs /\ d <> [] /\ et_escaped s t) /\
    (forall s t kv d, et_escaped s t -> dget str_eq_dec gs s = Some (kv :: d) ->
       exists d', dget str_eq_dec gs' t = Some d' /\
         forall k, dget str_eq_dec d' k = match dget str_eq_dec (kv :: d) k with Some v => understood v | None => None end) /\
    (forall s t, et_escaped s t -> dget str_eq_dec gs s = None \/ dget str_eq_dec gs s = Some [] -> dget str_eq_dec gs' t = None).

  (** A log as the client holds it: dicts have distinct keys, extensions no second name, and keys of
      classifiers no spaces. *)
  Record held (log : eventlog) : Prop := {
    h_attrs : is_dict (l_attrs log);
    h_exts : forall n c, In (n, c) (l_extensions log) -> is_dict c /\ ~ In (str "name") (dkeys c);
    h_cls : forall n ks, In (n, ks) (l_classifiers log) -> ks <> [] /\ forall k, In k ks -> ~ In 32%N k;
    h_globals : is_dict (l_globals log);
    h_values : forall n g, In (n, g) (l_globals log) -> is_dict g;
    h_events : forall t e, In t (l_traces log) -> In e (t_events t) -> is_dict e
  }.
End ToBackend.

(** * From the backend to the client *)

(** [flat s t]: [t] is [s] with a blank for each tab and each end of a line. *)
Inductive flat : pystr -> pystr -> Prop :=
| flat_nil : flat [] []
| flat_same c s t : ~ In c [9; 10; 13]%N -> flat s t -> flat (c :: s) (c :: t)
| flat_blank c s t : In c [9; 10]%N -> flat s t -> flat (c :: s) (32%N :: t)
| flat_crlf s t : flat s t -> flat (13%N :: 10%N :: s) (32%N :: t)
| flat_cr s t : hd_error s <> Some 10%N -> flat s t -> flat (13%N :: s) (32%N :: t).
(** A text without tabs and ends of lines. *)
Definition one_line (s : pystr) : Prop := forall c, In c s -> ~ In c [9; 10; 13]%N.

Section ToClient.
  Variables date f32 f64 : Type.
  Variables (show_date : date -> pystr) (show_f32 : f32 -> pystr) (show_f64 : f64 -> pystr).
  Variables (parse_float parse_datetime : pystr -> result pystr).
  Notation pval := (pval date f32 f64).
  Notation xevent := (xevent date f32 f64).
  Notation xlog := (xlog date f32 f64).

  (** The text of a value. *)
  Inductive shows : pval -> pystr -> Prop :=
  | shows_date d : shows (PDate d) (show_date d)
  | shows_text v s : v = PString s \/ v = PLifecycle s -> shows v s
  | shows_bool b : shows (PBool b) (if b then str "true" else str "false")
  | shows_int v z : v = PInt32 z \/ v = PInt64 z \/ v = PUint32 z \/ v = PUint64 z \/ v = PTimestamp z -> shows v (show_int z)
  | shows_f32 f : shows (PFloat32 f) (show_f32 f)
  | shows_f64 f : shows (PFloat64 f) (show_f64 f)
  | shows_guid u : shows (PGuid u) (uuid_str u).

  Definition rmap {A B} (f : A -> B) (r : result A) : result (option B) := match r with Ok x => Ok (Some (f x)) | Err e => Err e end.
  (** [taken v r]: what the client makes of the value [v] of an event or a property: an error, nothing, or a value. *)
  Inductive taken : pval -> result (option value) -> Prop :=
  | taken_text v s t : v = PString s \/ v = PLifecycle s -> flat s t -> taken v (Ok (Some (VStr t)))
  | taken_bool b : taken (PBool b) (Ok (Some (VBool true)))
  | taken_int v z : v = PInt32 z \/ v = PInt64 z \/ v = PUint32 z \/ v = PUint64 z -> taken v (Ok (Some (VInt z)))
  | taken_date d t : flat (show_date d) t -> taken (PDate d) (rmap VDate (parse_datetime t))
  | taken_stamp z : taken (PTimestamp z) (rmap VDate (parse_datetime (show_int z)))
  | taken_f32 f t : flat (show_f32 f) t -> taken (PFloat32 f) (rmap VFloat (parse_float t))
  | taken_f64 f t : flat (show_f64 f) t -> taken (PFloat64 f) (rmap VFloat (parse_float t))
  | taken_guid u : taken (PGuid u) (Ok None).

  (** All attributes of an event. *)
  Definition attributes (e : xevent) : list (pystr * pval) :=
    (str "concept:name", PString (x_name e)) :: (str "time:timestamp", PDate (x_time e)) :: x_payload e.
  (** The value is one of a property or of an event. *)
  Definition value_of (log : xlog) (v : pval) : Prop :=
    In v (map snd (x_props log)) \/ exists es e, In es (x_traces log) /\ In e es /\ In v (map snd (attributes e)).

  (** [taken_at l k o]: what the client makes of key [k] of [l]. *)
  Definition taken_at (l : list (pystr * pval)) (k : pystr) (o : option value) : Prop :=
    match dget str_eq_dec l k with Some v => taken v (Ok o) | None => o = None end.
  (** [text_at l k o]: the text the client has for key [k] of the declared values [l]. *)
  Definition text_at (l : list (pystr * pval)) (k : pystr) (o : option value) : Prop :=
    match dget str_eq_dec l k with Some v => exists s t, shows v s /\ flat s t /\ o = Some (VStr t) | None => o = None end.
  Definition scope_at (log : xlog) (scope k : pystr) (o : option value) : Prop :=
    match dget str_eq_dec (x_globals log) scope with Some d => text_at d k o | None => o = None end.
  (** [event_taken log e d]: each key has the value of the event, or else the declared text. *)
  Definition event_taken (log : xlog) (e : xevent) (d : event) : Prop :=
    forall k, exists own def, taken_at (attributes e) k own /\ scope_at log (str "event") k def /\
      dget str_eq_dec d k = match own with Some v => Some v | None => def end.
  Definition trace_taken (log : xlog) (es : list xevent) (t : trace) : Prop :=
    Forall2 (event_taken log) es (t_events t) /\ forall k, scope_at log (str "trace") k (dget str_eq_dec (t_attrs t) k).

  (** Names and keys on one line, and no two the same in one place. *)
  Record fair (log : xlog) : Prop := {
    f_sound : RXesSpec.sound date f32 f64 log;
    f_exts : NoDup (map xe_name (x_exts log)) /\ forall x, In x (x_exts log) -> one_line (xe_name x);
    f_cls : NoDup (map xc_name (x_classifiers log)) /\
      forall c, In c (x_classifiers log) -> one_line (xc_name c) /\ forall k, In k (xc_keys c) -> one_line k;
    f_props : NoDup (dkeys (x_props log)) /\ forall k, In k (dkeys (x_props log)) -> one_line k;
    f_scopes : forall s d, In (s, d) (x_globals log) -> one_line s /\ forall k, In k (dkeys d) -> one_line k;
    f_keys : forall es e k, In es (x_traces log) -> In e es -> In k (dkeys (x_payload e)) -> one_line k
  }.
End ToClient.
