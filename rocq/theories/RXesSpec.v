(** Vocabulary for C76 and C77: XES files in the backend. *)
From Coq Require Import Sorting.Permutation Sorting.Sorted.
From Verif Require Import Py HashModel XesModel WireModel RXesModel.

(** * Texts *)

(** A text without the characters that are escaped in attribute values: quotes, ampersand, angle brackets. *)
Definition markup_free (s : pystr) : Prop := forall c, In c s -> ~ In c [34; 38; 39; 60; 62]%N.

(** [t] is [s] with an entity for each such character. *)
Inductive escaped : pystr -> pystr -> Prop :=
| escaped_nil : escaped [] []
| escaped_same c s t : ~ In c [34; 38; 39; 60; 62]%N -> escaped s t -> escaped (c :: s) (c :: t)
| escaped_lt s t : escaped s t -> escaped (60%N :: s) (str "&lt;" ++ t)
| escaped_gt s t : escaped s t -> escaped (62%N :: s) (str "&gt;" ++ t)
| escaped_apos s t : escaped s t -> escaped (39%N :: s) (str "&apos;" ++ t)
| escaped_amp s t : escaped s t -> escaped (38%N :: s) (str "&amp;" ++ t)
| escaped_quot s t : escaped s t -> escaped (34%N :: s) (str "&quot;" ++ t).

Section Spec.
  Variables date f32 f64 : Type.
  Variables (show_date : date -> pystr) (show_f32 : f32 -> pystr) (show_f64 : f64 -> pystr).
  Variables (parse_date : pystr -> option date) (parse_f64 : pystr -> option f64) (parse_uuid : pystr -> option uuid).
  Notation pval := (pval date f32 f64).
  Notation xevent := (xevent date f32 f64).
  Notation xlog := (xlog date f32 f64).

  (** [becomes v o]: written and read, the value [v] is [o]; None when it is not read. *)
  Inductive becomes : pval -> option pval -> Prop :=
  | becomes_date d : becomes (PDate d) (option_map PDate (parse_date (show_date d)))
  | becomes_string s : becomes (PString s) (Some (PString s))
  | becomes_bool b : becomes (PBool b) (Some (PBool b))
  | becomes_int v z : v = PInt32 z \/ v = PInt64 z \/ v = PUint32 z \/ v = PUint64 z ->
      (- 2 ^ 63 <= z < 2 ^ 63)%Z -> becomes v (Some (PInt64 z))
  | becomes_big v z : v = PInt32 z \/ v = PInt64 z \/ v = PUint32 z \/ v = PUint64 z ->
      ~ (- 2 ^ 63 <= z < 2 ^ 63)%Z -> becomes v None
  | becomes_f32 f : becomes (PFloat32 f) (option_map PFloat64 (parse_f64 (show_f32 f)))
  | becomes_f64 f : becomes (PFloat64 f) (option_map PFloat64 (parse_f64 (show_f64 f)))
  | becomes_guid u : becomes (PGuid u) (option_map PGuid (parse_uuid (uuid_str u)))
  | becomes_timestamp z : becomes (PTimestamp z) (option_map PDate (parse_date (show_int z)))
  | becomes_lifecycle s : becomes (PLifecycle s) (Some (PString s)).

  (** [at_key d k o]: what is read for key [k] of the values [d]. *)
  Definition at_key (d : dict pystr pval) (k : pystr) (o : option pval) : Prop :=
    match dget str_eq_dec d k with
    | Some v => becomes v o
    | None => o = None
    end.

  (** [default_at log k o]: the default of key [k] for events. *)
  Definition default_at (log : xlog) (k : pystr) (o : option pval) : Prop :=
    match dget str_eq_dec (x_globals log) (str "event") with
    | Some d => at_key d k o
    | None => o = None
    end.

  (** [stamp log e o]: the time of the event when it is read: its own, or the default one. *)
  Definition stamp (log : xlog) (e : xevent) (o : option date) : Prop :=
    match parse_date (show_date (x_time e)) with
    | Some d => o = Some d
    | None => exists v, default_at log (str "time:timestamp") v /\ o = match v with Some (PDate d) => Some d | _ => None end
    end.

  (** [comes_back log e e']: same name, its time, and for each key the value it becomes or the default. *)
  Definition comes_back (log : xlog) (e e' : xevent) : Prop :=
    x_name e' = x_name e /\ stamp log e (Some (x_time e')) /\
    ~ In (str "concept:name") (dkeys (x_payload e')) /\ ~ In (str "time:timestamp") (dkeys (x_payload e')) /\
    forall k, k <> str "concept:name" -> k <> str "time:timestamp" ->
      exists own def, at_key (x_payload e) k own /\ default_at log k def /\
        dget str_eq_dec (x_payload e') k = match own with Some v => Some v | None => def end.

  (** Events in order; those without a time that can be read are missing. *)
  Inductive events_back (log : xlog) : list xevent -> list xevent -> Prop :=
  | back_nil : events_back log [] []
  | back_kept e e' l l' : comes_back log e e' -> events_back log l l' -> events_back log (e :: l) (e' :: l')
  | back_lost e l l' : stamp log e None -> events_back log l l' -> events_back log (e :: l) l'.

  (** Properties in order; those that are not read are missing. *)
  Inductive props_back : list (pystr * pval) -> list (pystr * pval) -> Prop :=
  | props_nil : props_back [] []
  | props_kept k v v' l l' : becomes v (Some v') -> props_back l l' -> props_back ((k, v) :: l) ((k, v') :: l')
  | props_lost k v l l' : becomes v None -> props_back l l' -> props_back ((k, v) :: l) l'.

  (** Values that come back as they are. *)
  Definition faithful (v : pval) : Prop := becomes v (Some v).

  (** A log as the backend holds it: maps have distinct keys, names and times are no payload, and keys of
      classifiers have no spaces. *)
  Record sound (log : xlog) : Prop := {
    s_globals : NoDup (dkeys (x_globals log));
    s_values : forall s d, In (s, d) (x_globals log) -> NoDup (dkeys d);
    s_payload : forall es e, In es (x_traces log) -> In e es ->
      NoDup (dkeys (x_payload e)) /\ ~ In (str "concept:name") (dkeys (x_payload e)) /\ ~ In (str "time:timestamp") (dkeys (x_payload e));
    s_keys : forall c, In c (x_classifiers log) -> xc_keys c <> [] /\ forall k, In k (xc_keys c) -> ~ In 32%N k
  }.
End Spec.

(** [sorted] is [l] sorted by name; equal names keep their order. *)
Definition stably_sorted {A} (l sorted : list (pystr * A)) : Prop :=
  Permutation l sorted /\
  StronglySorted (fun a b => str_leb (fst a) (fst b) = true) sorted /\
  forall n, filter (fun x => str_eqb (fst x) n) sorted = filter (fun x => str_eqb (fst x) n) l.

(** Well nested: each end has the name of the last start that is not ended yet. *)
Fixpoint nested (opened : list pystr) (l : list tok) : Prop :=
  match l with
  | [] => opened = []
  | TStart n _ :: r => nested (n :: opened) r
  | TEnd n :: r => match opened with m :: rest => n = m /\ nested rest r | [] => False end
  | TEmpty _ _ :: r | TOther :: r => nested opened r
  | TErr :: _ => False
  end.

(** All keys and values can be unescaped: no entity but the known ones. *)
Definition good_attrs (attrs : list (option (pystr * pystr))) : Prop :=
  forall k v, In (Some (k, v)) attrs -> k = str "key" \/ k = str "value" -> unescape v <> None.
Definition good_entities (l : list tok) : Prop :=
  forall n attrs, In (TStart n attrs) l \/ In (TEmpty n attrs) l -> good_attrs attrs.

(** A file without the text, comments and declarations between the tags. *)
Definition tags_only (l : list tok) : list tok := filter (fun t => match t with TOther => false | _ => true end) l.

(** Logs with texts, values, traces and defaults that come back as they are. *)
Section Plain.
  Variables date f32 f64 : Type.
  Variables (show_date : date -> pystr) (show_f32 : f32 -> pystr) (show_f64 : f64 -> pystr).
  Variables (parse_date : pystr -> option date) (parse_f64 : pystr -> option f64) (parse_uuid : pystr -> option uuid).
  Notation becomes := (becomes date f32 f64 show_date show_f32 show_f64 parse_date parse_f64 parse_uuid).
  Record plain (log : xlog date f32 f64) : Prop := {
    p_exts : forall x, In x (x_exts log) -> markup_free (xe_name x) /\ markup_free (xe_prefix x) /\ markup_free (xe_uri x);
    p_cls : forall c, In c (x_classifiers log) -> markup_free (xc_name c) /\ forall k, In k (xc_keys c) -> markup_free k;
    p_scopes : forall s d, In (s, d) (x_globals log) -> markup_free s /\ d <> [] /\ s <> str "event";
    p_defaults : forall s d k v, In (s, d) (x_globals log) -> In (k, v) d -> becomes v (Some v);
    p_events : forall es e, In es (x_traces log) -> In e es ->
      parse_date (show_date (x_time e)) = Some (x_time e) /\ forall k v, In (k, v) (x_payload e) -> becomes v (Some v);
    p_traces : ~ In [] (x_traces log);
    p_sorted : StronglySorted (fun a b => str_leb (fst a) (fst b) = true) (x_props log);
    p_props : forall k v, In (k, v) (x_props log) -> becomes v (Some v)
  }.
End Plain.

(** The same map, whatever the order of the keys. *)
Definition same_map {V} (a b : dict pystr V) : Prop := forall k, dget str_eq_dec a k = dget str_eq_dec b k.

(** The last tag of a trace in the file is its start. *)
Definition in_trace (l : list tok) : bool :=
  fold_left (fun b t => match t with
                        | TStart n _ => b || str_eqb n (str "trace")
                        | TEnd n => b && negb (str_eqb n (str "trace"))
                        | _ => b
                        end) l false.

(** The log with these traces. *)
Definition with_traces {date f32 f64} (log : xlog date f32 f64) (ts : list (list (xevent date f32 f64))) : xlog date f32 f64 :=
  mkXLog ts (x_globals log) (x_exts log) (x_classifiers log) (x_props log).
