(** Model of reading and writing XES files in the backend: src/rust/ficus_backend/src/event_log/xes/,
    utils/xml_utils.rs, pipelines/xes_parts.rs 17-43.
    A file is the sequence of events quick_xml gives for it; attribute values are the raw (escaped)
    texts.  Simplifications: texts are unicode, so no String::from_utf8 fails; writing to memory and to
    the file does not fail; a missing payload map counts as an empty one; hash maps are association
    lists in some order. *)
From Verif Require Import Py HashModel TextModel XesModel WireModel.

(** quick_xml::events::Event; a file without further events gives Eof for ever.  An attribute is an
    AttrError or name and raw value.  event_log/xes/reader/file_xes_log_reader.rs 41-85. *)
Inductive tok :=
| TStart (name : pystr) (attrs : list (option (pystr * pystr)))
| TEmpty (name : pystr) (attrs : list (option (pystr * pystr)))
| TEnd (name : pystr)
| TOther
| TErr.

(** How reading goes: a result, a panic, or an endless loop. *)
Inductive outcome (A : Type) := Fine (a : A) | Panics | Hangs.
Arguments Fine {A} a. Arguments Panics {A}. Arguments Hangs {A}.

(** * Escapes of quick_xml *)

(** The five entities, as used by BytesStart::push_attribute in utils/xml_utils.rs 41-43, 77-79. *)
Definition escape_char (c : N) : pystr :=
  if N.eqb c 60 then str "&lt;" else if N.eqb c 62 then str "&gt;" else if N.eqb c 39 then str "&apos;"
  else if N.eqb c 38 then str "&amp;" else if N.eqb c 34 then str "&quot;" else [c].
(** quick_xml::escape::escape, as used in utils/xml_utils.rs 41-43, 77-79. *)
Definition escape (s : pystr) : pystr := flat_map escape_char s.

(** The digit of a hexadecimal or decimal number, quick_xml::escape::unescape as used in reader/utils.rs 29-30. *)
Definition hex_digit (c : N) : option N :=
  if ((48 <=? c) && (c <=? 57))%N then Some (c - 48)%N
  else if ((97 <=? c) && (c <=? 102))%N then Some (c - 87)%N
  else if ((65 <=? c) && (c <=? 70))%N then Some (c - 55)%N else None.
(** A number in a base, quick_xml::escape::unescape as used in reader/utils.rs 29-30. *)
Fixpoint read_base (base : N) (s : pystr) (acc : N) : option N :=
  match s with
  | [] => Some acc
  | c :: s' => match hex_digit c with
               | Some d => if (d <? base)%N then read_base base s' (acc * base + d)%N else None
               | None => None
               end
  end.
(** The text of an entity; None for an EscapeError.  Simplification: which numbers are characters is left
    out but for 0.  quick_xml::escape::unescape as used in reader/utils.rs 29-30. *)
Definition entity (e : pystr) : option pystr :=
  let number base digits :=
    match digits with
    | [] => None
    | _ => match read_base base digits 0%N with Some n => if N.eqb n 0 then None else Some [n] | None => None end
    end in
  match e with
  | 35%N :: 120%N :: digits => number 16%N digits
  | 35%N :: digits => number 10%N digits
  | _ =>
      if str_eqb e (str "lt") then Some [60%N] else if str_eqb e (str "gt") then Some [62%N]
      else if str_eqb e (str "apos") then Some [39%N] else if str_eqb e (str "amp") then Some [38%N]
      else if str_eqb e (str "quot") then Some [34%N] else None
  end.
(** quick_xml::escape::unescape, as used in reader/utils.rs 29-30; [inside] is the entity being read. *)
Fixpoint unescape_go (s : pystr) (inside : option pystr) : option pystr :=
  match s, inside with
  | [], None => Some []
  | [], Some _ => None
  | c :: s', None =>
      if N.eqb c 38 then unescape_go s' (Some [])
      else match unescape_go s' None with Some r => Some (c :: r) | None => None end
  | c :: s', Some e =>
      if N.eqb c 59 then
        match entity e, unescape_go s' None with Some t, Some r => Some (t ++ r) | _, _ => None end
      else if N.eqb c 38 then None
      else unescape_go s' (Some (e ++ [c]))
  end.
(** quick_xml::escape::unescape, as used in reader/utils.rs 29-30. *)
Definition unescape (s : pystr) : option pystr := unescape_go s None.

(** value.parse::<i64>(), reader/utils.rs 82. *)
Definition parse_i64 (s : pystr) : option Z :=
  let digits := match s with
                | c :: s' => if N.eqb c 43 then read_digits s' false else parse_int s
                | [] => Err ValueError
                end in
  match digits with
  | Ok z => if ((- 2 ^ 63 <=? z) && (z <? 2 ^ 63))%Z then Some z else None
  | Err _ => None
  end.

(** vec.sort_by, which is stable.  utils/vec_utils.rs 1-3. *)
Fixpoint insert_first {A} (x : pystr * A) (l : list (pystr * A)) : list (pystr * A) :=
  match l with
  | [] => [x]
  | y :: r => if str_leb (fst x) (fst y) then x :: y :: r else y :: insert_first x r
  end.
(** sort_by_first, utils/vec_utils.rs 1-3. *)
Definition sort_by_first {A} (l : list (pystr * A)) : list (pystr * A) := fold_right insert_first [] l.

Section RXes.
  (** DateTime<Utc>, f32 and f64. *)
  Variables date f32 f64 : Type.
  (** to_rfc3339 and parse_from_rfc3339 of chrono, Display of f32 and f64, parse of f64, Uuid::parse_str. *)
  Variables (show_date : date -> pystr) (show_f32 : f32 -> pystr) (show_f64 : f64 -> pystr).
  Variables (parse_date : pystr -> option date) (parse_f64 : pystr -> option f64) (parse_uuid : pystr -> option uuid).

  (** EventPayloadValue, event_log/core/event/event.rs 8-22.  A lifecycle is its text. *)
  Inductive pval :=
  | PDate (d : date) | PString (s : pystr) | PBool (b : bool) | PInt32 (z : Z) | PInt64 (z : Z)
  | PFloat32 (f : f32) | PFloat64 (f : f64) | PUint32 (z : Z) | PUint64 (z : Z) | PGuid (u : uuid)
  | PTimestamp (z : Z) | PLifecycle (s : pystr).

  (** XesEventImpl, event_log/xes/xes_event.rs 12-15, with EventBase. *)
  Record xevent := mkXEvent { x_name : pystr; x_time : date; x_payload : dict pystr pval }.
  (** XesEventLogExtension, event_log/xes/shared.rs 5-10. *)
  Record xext := mkXExt { xe_name : pystr; xe_prefix : pystr; xe_uri : pystr }.
  (** XesClassifier, event_log/xes/shared.rs 18-22. *)
  Record xcls := mkXCls { xc_name : pystr; xc_keys : list pystr }.
  (** XesEventLogImpl, event_log/xes/xes_event_log.rs 16-22. *)
  Record xlog := mkXLog {
    x_traces : list (list xevent);
    x_globals : dict pystr (dict pystr pval);
    x_exts : list xext;
    x_classifiers : list xcls;
    x_props : list (pystr * pval) }.

  (** * The reader *)

  (** extract_key_value, reader/utils.rs 42-63: the last attribute of each name counts. *)
  Definition last_attr (name : pystr) (attrs : list (option (pystr * pystr))) : option pystr :=
    fold_left (fun acc a => match a with
                            | Some (k, v) => if str_eqb k name then Some v else acc
                            | None => acc
                            end) attrs None.

  (** read_payload_like_tag, reader/utils.rs 23-40: key and value; bad escapes panic. *)
  Definition read_payload_like_tag (attrs : list (option (pystr * pystr))) : outcome (option (pystr * pystr)) :=
    match last_attr (str "key") attrs, last_attr (str "value") attrs with
    | Some k, Some v => match unescape k, unescape v with Some k', Some v' => Fine (Some (k', v')) | _, _ => Panics end
    | _, _ => Fine None
    end.

  (** extract_payload_value, reader/utils.rs 76-102. *)
  Definition extract_payload_value (name value : pystr) : option pval :=
    if str_eqb name (str "date") then option_map PDate (parse_date value)
    else if str_eqb name (str "int") then option_map PInt64 (parse_i64 value)
    else if str_eqb name (str "float") then option_map PFloat64 (parse_f64 value)
    else if str_eqb name (str "string") then Some (PString value)
    else if str_eqb name (str "boolean") then
      (if str_eqb value (str "true") then Some (PBool true) else if str_eqb value (str "false") then Some (PBool false) else None)
    else if str_eqb name (str "id") then option_map PGuid (parse_uuid value)
    else None.

  (** What is known of an event being read, reader/xes_log_trace_reader.rs 55-57. *)
  Record partial := mkPartial { p_name : option pystr; p_date : option date; p_payload : dict pystr pval }.

  (** update_event_data, reader/xes_log_trace_reader.rs 124-150. *)
  Definition update_event_data (key : pystr) (v : pval) (p : partial) : partial :=
    if str_eqb key (str "time:timestamp") then
      match v with PDate d => mkPartial (p_name p) (Some d) (p_payload p) | _ => p end
    else if str_eqb key (str "concept:name") then
      match v with PString s => mkPartial (Some s) (p_date p) (p_payload p) | _ => p end
    else mkPartial (p_name p) (p_date p) (dset str_eq_dec (p_payload p) key v).

  (** set_defaults_value, reader/xes_log_trace_reader.rs 91-105. *)
  Definition defaults (globals : dict pystr (dict pystr pval)) : partial :=
    match dget str_eq_dec globals (str "event") with
    | None => mkPartial None None []
    | Some d => fold_left (fun p kv => update_event_data (fst kv) (snd kv) p) d (mkPartial None None [])
    end.

  (** try_parse_event_from, reader/xes_log_trace_reader.rs 54-89: after the start of the event; the event
      (None without name or date) and what follows it. *)
  Fixpoint read_event (p : partial) (l : list tok) : outcome (option xevent * list tok) :=
    match l with
    | [] => Hangs
    | TEnd n :: r =>
        if str_eqb n (str "event")
        then Fine (match p_name p, p_date p with
                   | Some name, Some d => Some (mkXEvent name d (p_payload p))
                   | _, _ => None
                   end, r)
        else read_event p r
    | TEmpty n attrs :: r =>
        match read_payload_like_tag attrs with
        | Fine (Some (k, v)) =>
            match extract_payload_value n v with
            | Some pv => read_event (update_event_data k pv p) r
            | None => read_event p r
            end
        | Fine None => read_event p r
        | Panics => Panics
        | Hangs => Hangs
        end
    | _ :: r => read_event p r
    end.

  (** TraceXesEventLogIterator::next until it gives None, reader/xes_log_trace_reader.rs 20-40, collected
      by XesTraceImpl::new, xes_trace.rs 15-27.  [fuel] bounds the number of calls of read_event. *)
  Fixpoint read_trace (fuel : nat) (globals : dict pystr (dict pystr pval)) (l : list tok) : outcome (list xevent * list tok) :=
    match fuel with
    | O => Hangs
    | S fuel' =>
        match l with
        | [] => Hangs
        | TStart n _ :: r =>
            if str_eqb n (str "event") then
              match read_event (defaults globals) r with
              | Fine (o, r') =>
                  match read_trace fuel' globals r' with
                  | Fine (es, r'') => Fine (match o with Some e => e :: es | None => es end, r'')
                  | Panics => Panics
                  | Hangs => Hangs
                  end
              | Panics => Panics
              | Hangs => Hangs
              end
            else read_trace fuel' globals r
        | TEnd n :: r => if str_eqb n (str "trace") then Fine ([], r) else read_trace fuel' globals r
        | TErr :: r => Fine ([], r)
        | _ :: r => read_trace fuel' globals r
        end
    end.

  (** try_read_global, reader/file_xes_log_reader.rs 157-186. *)
  Fixpoint read_global (map : option (dict pystr pval)) (l : list tok) : outcome (option (dict pystr pval) * list tok) :=
    match l with
    | [] => Hangs
    | TErr :: r => Fine (None, r)
    | TEmpty n attrs :: r =>
        match read_payload_like_tag attrs with
        | Fine (Some (k, v)) =>
            let m := match map with Some m => m | None => [] end in
            read_global (Some (match extract_payload_value n v with Some pv => dset str_eq_dec m k pv | None => m end)) r
        | Fine None => read_global map r
        | Panics => Panics
        | Hangs => Hangs
        end
    | TEnd n :: r => if str_eqb n (str "global") then Fine (map, r) else read_global map r
    | _ :: r => read_global map r
    end.

  (** XesEventLogItem, reader/file_xes_log_reader.rs 20-26, with the trace read by XesTraceImpl::new. *)
  Inductive item :=
  | ITrace (es : list xevent)
  | IGlobal (scope : pystr) (values : dict pystr pval)
  | IExtension (x : xext)
  | IClassifier (x : xcls)
  | IProperty (name : pystr) (v : pval).

  (** try_read_property, reader/file_xes_log_reader.rs 141-155. *)
  Definition try_read_property (name : pystr) (attrs : list (option (pystr * pystr))) : outcome (option item) :=
    match read_payload_like_tag attrs with
    | Fine (Some (k, v)) => Fine (option_map (IProperty k) (extract_payload_value name v))
    | Fine None => Fine None
    | Panics => Panics
    | Hangs => Hangs
    end.

  (** try_read_extension, reader/file_xes_log_reader.rs 220-257: raw texts; an AttrError gives None. *)
  Definition try_read_extension (attrs : list (option (pystr * pystr))) : option xext :=
    if existsb (fun a => match a with None => true | _ => false end) attrs then None else
    match last_attr (str "name") attrs, last_attr (str "prefix") attrs, last_attr (str "uri") attrs with
    | Some n, Some p, Some u => Some (mkXExt n p u)
    | _, _, _ => None
    end.

  (** try_read_classifier, reader/file_xes_log_reader.rs 188-218: raw texts. *)
  Definition try_read_classifier (attrs : list (option (pystr * pystr))) : option xcls :=
    match last_attr (str "name") attrs, last_attr (str "keys") attrs with
    | Some n, Some ks => Some (mkXCls n (split_go (str " ") ks 0 []))
    | _, _ => None
    end.

  (** try_read_tag, reader/file_xes_log_reader.rs 120-139. *)
  Definition try_read_tag (name : pystr) (attrs : list (option (pystr * pystr))) : outcome (option item) :=
    let found :=
      if str_eqb name (str "extension") then option_map IExtension (try_read_extension attrs)
      else if str_eqb name (str "classifier") then option_map IClassifier (try_read_classifier attrs)
      else None in
    match found with Some i => Fine (Some i) | None => try_read_property name attrs end.

  (** FromFileXesEventLogReader::next until it gives None, reader/file_xes_log_reader.rs 35-87.  [seen] are
      the globals so far. *)
  Fixpoint read_items (fuel : nat) (seen : dict pystr (dict pystr pval)) (l : list tok) : outcome (list item) :=
    match fuel with
    | O => Hangs
    | S fuel' =>
        let emit o r :=
          match o with
          | Fine (Some i) => match read_items fuel' seen r with Fine is => Fine (i :: is) | Panics => Panics | Hangs => Hangs end
          | Fine None => read_items fuel' seen r
          | Panics => Panics
          | Hangs => Hangs
          end in
        match l with
        | [] => Fine []
        | TErr :: _ => Fine []
        | TStart n attrs :: r =>
            if str_eqb n (str "trace") then
              match read_trace (S (length r)) seen r with
              | Fine (es, r') =>
                  match read_items fuel' seen r' with Fine is => Fine (ITrace es :: is) | Panics => Panics | Hangs => Hangs end
              | Panics => Panics
              | Hangs => Hangs
              end
            else if str_eqb n (str "global") then
              match last_attr (str "scope") attrs with
              | None => read_items fuel' seen r
              | Some scope =>
                  match read_global None r with
                  | Fine (None, r') => read_items fuel' seen r'
                  | Fine (Some values, r') =>
                      if dmem str_eq_dec seen scope then read_items fuel' seen r'
                      else match read_items fuel' (dset str_eq_dec seen scope values) r' with
                           | Fine is => Fine (IGlobal scope values :: is)
                           | Panics => Panics
                           | Hangs => Hangs
                           end
                  | Panics => Panics
                  | Hangs => Hangs
                  end
              end
            else if str_eqb n (str "extension") || str_eqb n (str "classifier") then emit (try_read_tag n attrs) r
            else emit (try_read_property n attrs) r
        | TEmpty n attrs :: r => emit (try_read_tag n attrs) r
        | _ :: r => read_items fuel' seen r
        end
    end.

  (** XesEventLogImpl::new, xes_event_log.rs 80-114. *)
  Definition add_item (log : xlog) (i : item) : xlog :=
    match i with
    | ITrace es => mkXLog (x_traces log ++ [es]) (x_globals log) (x_exts log) (x_classifiers log) (x_props log)
    | IGlobal s d => mkXLog (x_traces log) (dset str_eq_dec (x_globals log) s d) (x_exts log) (x_classifiers log) (x_props log)
    | IExtension x => mkXLog (x_traces log) (x_globals log) (x_exts log ++ [x]) (x_classifiers log) (x_props log)
    | IClassifier x => mkXLog (x_traces log) (x_globals log) (x_exts log) (x_classifiers log ++ [x]) (x_props log)
    | IProperty n v => mkXLog (x_traces log) (x_globals log) (x_exts log) (x_classifiers log) (x_props log ++ [(n, v)])
    end.
  (** EventLog::empty, xes_event_log.rs 133-141. *)
  Definition empty_log : xlog := mkXLog [] [] [] [] [].

  (** read_event_log of a file that can be opened, reader/file_xes_log_reader.rs 28-30. *)
  Definition read_log (l : list tok) : outcome xlog :=
    match read_items (S (length l)) [] l with
    | Fine is => Fine (fold_left add_item is empty_log)
    | Panics => Panics
    | Hangs => Hangs
    end.

  (** * The writer *)

  (** EventPayloadValue::to_string, event_log/core/event/event.rs 24-41. *)
  Definition pval_text (v : pval) : pystr :=
    match v with
    | PDate d => show_date d
    | PString s => s
    | PBool b => if b then str "true" else str "false"
    | PInt32 z | PInt64 z | PUint32 z | PUint64 z | PTimestamp z => show_int z
    | PFloat32 f => show_f32 f
    | PFloat64 f => show_f64 f
    | PGuid u => uuid_str u
    | PLifecycle s => s
    end.

  (** The tag of a value, writer/xes_event_log_writer.rs 98-111. *)
  Definition pval_tag (v : pval) : pystr :=
    match v with
    | PDate _ | PTimestamp _ => str "date"
    | PString _ | PLifecycle _ => str "string"
    | PBool _ => str "boolean"
    | PInt32 _ | PInt64 _ | PUint32 _ | PUint64 _ => str "int"
    | PFloat32 _ | PFloat64 _ => str "float"
    | PGuid _ => str "id"
    end.

  (** write_empty, utils/xml_utils.rs 38-51. *)
  Definition write_empty (tag : pystr) (attrs : list (pystr * pystr)) : tok :=
    TEmpty tag (map (fun kv => Some (fst kv, escape (snd kv))) attrs).
  (** write_payload_tag, writer/xes_event_log_writer.rs 97-119. *)
  Definition write_payload_tag (kv : pystr * pval) : tok :=
    write_empty (pval_tag (snd kv)) [(str "key", fst kv); (str "value", pval_text (snd kv))].

  (** writer/xes_event_log_writer.rs 31-39. *)
  Definition write_extension (x : xext) : tok :=
    write_empty (str "extension") [(str "name", xe_name x); (str "uri", xe_uri x); (str "prefix", xe_prefix x)].
  (** writer/xes_event_log_writer.rs 41-46, with keys.join(" "). *)
  Definition write_classifier (x : xcls) : tok :=
    write_empty (str "classifier") [(str "name", xc_name x); (str "keys", join_space (xc_keys x))].
  (** writer/xes_event_log_writer.rs 52-61. *)
  Definition write_global (sc : pystr * dict pystr pval) : list tok :=
    TStart (str "global") [Some (str "scope", escape (fst sc))] :: map write_payload_tag (snd sc) ++ [TEnd (str "global")].
  (** writer/xes_event_log_writer.rs 72-86. *)
  Definition write_event (e : xevent) : list tok :=
    TStart (str "event") [] ::
    write_empty (str "string") [(str "key", str "concept:name"); (str "value", x_name e)] ::
    write_empty (str "date") [(str "key", str "time:timestamp"); (str "value", show_date (x_time e))] ::
    map write_payload_tag (sort_by_first (x_payload e)) ++ [TEnd (str "event")].
  (** writer/xes_event_log_writer.rs 63-87: traces without events are skipped. *)
  Definition write_trace (es : list xevent) : list tok :=
    match es with
    | [] => []
    | _ => TStart (str "trace") [] :: flat_map write_event es ++ [TEnd (str "trace")]
    end.
  (** ordered_globals, xes_event_log.rs 66-80. *)
  Definition ordered_globals (g : dict pystr (dict pystr pval)) : list (pystr * list (pystr * pval)) :=
    sort_by_first (map (fun sc => (fst sc, sort_by_first (snd sc))) g).
  (** serialize_event_log, writer/xes_event_log_writer.rs 25-95, without the text between the tags. *)
  Definition write_log (log : xlog) : list tok :=
    TStart (str "log") [] ::
    map write_extension (x_exts log) ++
    map write_classifier (x_classifiers log) ++
    map write_payload_tag (sort_by_first (x_props log)) ++
    flat_map write_global (ordered_globals (x_globals log)) ++
    flat_map write_trace (x_traces log) ++
    [TEnd (str "log")].
End RXes.

Arguments PDate {date f32 f64} d. Arguments PString {date f32 f64} s. Arguments PBool {date f32 f64} b.
Arguments PInt32 {date f32 f64} z. Arguments PInt64 {date f32 f64} z. Arguments PFloat32 {date f32 f64} f.
Arguments PFloat64 {date f32 f64} f. Arguments PUint32 {date f32 f64} z. Arguments PUint64 {date f32 f64} z.
Arguments PGuid {date f32 f64} u. Arguments PTimestamp {date f32 f64} z. Arguments PLifecycle {date f32 f64} s.
Arguments mkXEvent {date f32 f64}. Arguments x_name {date f32 f64}. Arguments x_time {date f32 f64}. Arguments x_payload {date f32 f64}.
Arguments mkXLog {date f32 f64}. Arguments x_traces {date f32 f64}. Arguments x_globals {date f32 f64}.
Arguments x_exts {date f32 f64}. Arguments x_classifiers {date f32 f64}. Arguments x_props {date f32 f64}.
Arguments mkPartial {date f32 f64}. Arguments p_name {date f32 f64}. Arguments p_date {date f32 f64}. Arguments p_payload {date f32 f64}.
Arguments ITrace {date f32 f64}. Arguments IGlobal {date f32 f64}. Arguments IExtension {date f32 f64}.
Arguments IClassifier {date f32 f64}. Arguments IProperty {date f32 f64}.
Arguments update_event_data {date f32 f64}. Arguments defaults {date f32 f64}. Arguments add_item {date f32 f64}.
Arguments empty_log {date f32 f64}. Arguments pval_text {date f32 f64}. Arguments pval_tag {date f32 f64}.
Arguments write_payload_tag {date f32 f64}. Arguments write_global {date f32 f64}. Arguments write_event {date f32 f64}.
Arguments write_trace {date f32 f64}. Arguments ordered_globals {date f32 f64}. Arguments write_log {date f32 f64}.
Arguments extract_payload_value {date} f32 {f64}.
Arguments read_event {date} f32 {f64}. Arguments read_trace {date} f32 {f64}. Arguments read_global {date} f32 {f64}.
Arguments try_read_property {date} f32 {f64}. Arguments try_read_tag {date} f32 {f64}.
Arguments read_items {date} f32 {f64}. Arguments read_log {date} f32 {f64}.
