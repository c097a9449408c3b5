(** Model of reading and writing XES documents: legacy/log/functions.py 11-158, 215-292.
    The document is the element tree; ET.tostring / ET.parse and the file are not modelled (they
    are taken to give the same tree back, which needs log attribute names that are XML names). *)
From Coq Require Import Decimal DecimalZ.
From Verif Require Import Py LogModel TextModel.

(** ET.Element: tag, attributes, children.  As used in legacy/log/functions.py 46-142, 155, 216-272. *)
Inductive xml := Elem (tag : pystr) (attrib : dict pystr pystr) (children : list xml).
(** element.tag, legacy/log/functions.py 55, 137. *)
Definition tag_of (x : xml) : pystr := let (t, _, _) := x in t.
(** element.attrib, legacy/log/functions.py 50, 61-63, 142. *)
Definition attrib_of (x : xml) : dict pystr pystr := let (_, a, _) := x in a.
(** Iteration over an element, legacy/log/functions.py 54, 82, 95, 107. *)
Definition children_of (x : xml) : list xml := let (_, _, c) := x in c.

(** legacy/log/functions.py 11. *)
Definition tag_log := str "log".
(** legacy/log/functions.py 12. *)
Definition tag_trace := str "trace".
(** legacy/log/functions.py 13. *)
Definition tag_extension := str "extension".
(** legacy/log/functions.py 14. *)
Definition tag_classifier := str "classifier".
(** legacy/log/functions.py 16. *)
Definition tag_date := str "date".
(** legacy/log/functions.py 17. *)
Definition tag_string := str "string".
(** legacy/log/functions.py 18. *)
Definition tag_bool := str "boolean".
(** legacy/log/functions.py 19. *)
Definition tag_int := str "int".
(** legacy/log/functions.py 20. *)
Definition tag_float := str "float".
(** legacy/log/functions.py 22. *)
Definition tag_global := str "global".
(** legacy/log/functions.py 23. *)
Definition tag_event := str "event".
(** legacy/log/functions.py 24. *)
Definition attr_key := str "key".
(** legacy/log/functions.py 25. *)
Definition attr_value := str "value".
(** legacy/log/functions.py 27. *)
Definition attr_scope := str "scope".
(** legacy/log/functions.py 29. *)
Definition ext_name := str "name".
(** legacy/log/functions.py 30. *)
Definition ext_prefix := str "prefix".
(** legacy/log/functions.py 31. *)
Definition ext_uri := str "uri".
(** legacy/log/functions.py 33. *)
Definition classifier_name := str "name".
(** legacy/log/functions.py 34. *)
Definition classifier_keys := str "keys".

(** ' '.join(l).  legacy/log/functions.py 232. *)
Fixpoint join_space (l : list pystr) : pystr :=
  match l with
  | [] => []
  | [x] => x
  | x :: r => x ++ str " " ++ join_space r
  end.

(** str(int).  legacy/log/functions.py 157. *)
Fixpoint show_uint (u : uint) : pystr :=
  match u with
  | Nil => []
  | D0 u => 48%N :: show_uint u | D1 u => 49%N :: show_uint u | D2 u => 50%N :: show_uint u
  | D3 u => 51%N :: show_uint u | D4 u => 52%N :: show_uint u | D5 u => 53%N :: show_uint u
  | D6 u => 54%N :: show_uint u | D7 u => 55%N :: show_uint u | D8 u => 56%N :: show_uint u
  | D9 u => 57%N :: show_uint u
  end.
(** str(int), legacy/log/functions.py 157. *)
Definition show_int (z : Z) : pystr :=
  match Z.to_int z with Pos u => show_uint u | Neg u => 45%N :: show_uint u end.

(** int(str) on an optional '-' followed by decimal digits.  Simplification: the further syntax
    int() accepts (blanks, '+', '_', non-ASCII digits) counts as an error here.  legacy/log/functions.py 130. *)
Fixpoint read_uint (s : pystr) : option uint :=
  match s with
  | [] => Some Nil
  | c :: s' =>
      match read_uint s' with
      | None => None
      | Some u =>
          if N.eqb c 48 then Some (D0 u) else if N.eqb c 49 then Some (D1 u) else if N.eqb c 50 then Some (D2 u)
          else if N.eqb c 51 then Some (D3 u) else if N.eqb c 52 then Some (D4 u) else if N.eqb c 53 then Some (D5 u)
          else if N.eqb c 54 then Some (D6 u) else if N.eqb c 55 then Some (D7 u) else if N.eqb c 56 then Some (D8 u)
          else if N.eqb c 57 then Some (D9 u) else None
      end
  end.
(** The digits of int(str), legacy/log/functions.py 130. *)
Definition read_digits (s : pystr) (neg : bool) : result Z :=
  match s with
  | [] => Err ValueError
  | _ => match read_uint s with
         | Some u => Ok (Z.of_int (if neg then Neg u else Pos u))
         | None => Err ValueError
         end
  end.
(** int(str), legacy/log/functions.py 130. *)
Definition parse_int (s : pystr) : result Z :=
  match s with
  | c :: s' => if N.eqb c 45 then read_digits s' true else read_digits s false
  | [] => Err ValueError
  end.

(** legacy/log/functions.py 119-120: tag[tag.index('}')+1:] if '}' in tag else tag. *)
Fixpoint after_brace (s : pystr) : option pystr :=
  match s with
  | [] => None
  | c :: s' => if N.eqb c 125 then Some s' else after_brace s'
  end.
(** legacy/log/functions.py 119-120. *)
Definition get_tag_wo_xmlns (tag : pystr) : pystr :=
  match after_brace tag with Some s => s | None => tag end.

Section Xes.
  (** float(s) and dateutil's parser.parse(s), giving the textual form of the parsed value. *)
  Variables (parse_float parse_date : pystr -> result pystr).
  (** Python's == on attribute values. *)
  Variable veq : value -> value -> bool.

  (** legacy/log/functions.py 127-133, 136-137: the tags having a parse function. *)
  Definition is_value_tag (x : xml) : bool :=
    existsb (str_eqb (get_tag_wo_xmlns (tag_of x))) [tag_string; tag_date; tag_int; tag_float; tag_bool].

  (** legacy/log/functions.py 140-142 with the functions of 127-133; bool(s) is "s is not empty". *)
  Definition parse_value_tag (x : xml) : result value :=
    bind (dgetitem str_eq_dec (attrib_of x) attr_value) (fun s =>
      let t := get_tag_wo_xmlns (tag_of x) in
      if str_eqb t tag_string then Ok (VStr s)
      else if str_eqb t tag_date then bind (parse_date s) (fun d => Ok (VDate d))
      else if str_eqb t tag_int then bind (parse_int s) (fun z => Ok (VInt z))
      else if str_eqb t tag_float then bind (parse_float s) (fun r => Ok (VFloat r))
      else if str_eqb t tag_bool then Ok (VBool (0 <? length s))
      else Err KeyError).

  (** d[child.attrib['key']] = _parse_value_tag(child), legacy/log/functions.py 74, 98, 109. *)
  Definition add_value (d : dict pystr value) (x : xml) : result (dict pystr value) :=
    bind (parse_value_tag x) (fun v =>
    bind (dgetitem str_eq_dec (attrib_of x) attr_key) (fun k => Ok (dset str_eq_dec d k v))).

  (** legacy/log/functions.py 82-84: global defaults are stored as text. *)
  Definition add_global (d : dict pystr value) (x : xml) : result (dict pystr value) :=
    bind (dgetitem str_eq_dec (attrib_of x) attr_value) (fun v =>
    bind (dgetitem str_eq_dec (attrib_of x) attr_key) (fun k => Ok (dset str_eq_dec d k (VStr v)))).

  (** legacy/log/functions.py 54-86: one child of the root; the second component collects the trace elements. *)
  Definition read_child (st : eventlog * list xml) (x : xml) : result (eventlog * list xml) :=
    let '(log, traces) := st in
    let t := get_tag_wo_xmlns (tag_of x) in
    if str_eqb t tag_trace then Ok (log, traces ++ [x])
    else if str_eqb t tag_extension then
      bind (dgetitem str_eq_dec (attrib_of x) ext_name) (fun n =>
      bind (dgetitem str_eq_dec (attrib_of x) ext_prefix) (fun p =>
      bind (dgetitem str_eq_dec (attrib_of x) ext_uri) (fun u =>
      Ok (mkLog (l_traces log) (l_attrs log) (dset str_eq_dec (l_extensions log) n [(ext_prefix, p); (ext_uri, u)])
            (l_classifiers log) (l_properties log) (l_globals log), traces))))
    else if str_eqb t tag_classifier then
      bind (dgetitem str_eq_dec (attrib_of x) classifier_name) (fun n =>
      bind (dgetitem str_eq_dec (attrib_of x) classifier_keys) (fun ks =>
      bind (py_split ks (str " ")) (fun keys =>
      Ok (mkLog (l_traces log) (l_attrs log) (l_extensions log) (dset str_eq_dec (l_classifiers log) n keys)
            (l_properties log) (l_globals log), traces))))
    else if is_value_tag x then
      bind (add_value (l_properties log) x) (fun p =>
      Ok (mkLog (l_traces log) (l_attrs log) (l_extensions log) (l_classifiers log) p (l_globals log), traces))
    else if str_eqb t tag_global then
      bind (dgetitem str_eq_dec (attrib_of x) attr_scope) (fun scope =>
      let old := match dget str_eq_dec (l_globals log) scope with Some d => d | None => [] end in
      bind (loopM add_global (children_of x) old) (fun d =>
      Ok (mkLog (l_traces log) (l_attrs log) (l_extensions log) (l_classifiers log) (l_properties log)
            (dset str_eq_dec (l_globals log) scope d), traces)))
    else Ok (log, traces).

  (** new dict filled from the defaults, legacy/log/functions.py 91-93 and 103-105. *)
  Definition from_defaults (globals : dict pystr (dict pystr value)) (scope : pystr) : dict pystr value :=
    match dget str_eq_dec globals scope with
    | Some d => fold_left (fun acc kv => dset str_eq_dec acc (fst kv) (snd kv)) d []
    | None => []
    end.

  (** legacy/log/functions.py 101-112: an event element. *)
  Definition read_event (globals : dict pystr (dict pystr value)) (x : xml) : result event :=
    loopM (fun e c => if is_value_tag c then add_value e c else Ok e) (children_of x)
          (from_defaults globals tag_event).

  (** legacy/log/functions.py 88-114: a trace element. *)
  Definition read_trace (globals : dict pystr (dict pystr value)) (x : xml) : result trace :=
    bind (loopM (fun st c =>
        let '(events, properties) := st in
        if is_value_tag c then bind (add_value properties c) (fun p => Ok (events, p))
        else if str_eqb (get_tag_wo_xmlns (tag_of c)) tag_event then
          bind (read_event globals c) (fun e => Ok (events ++ [e], properties))
        else Ok (events, properties))
      (children_of x) ([], from_defaults globals tag_trace))
    (fun st => Ok (mkTrace (fst st) (snd st))).

  (** legacy/log/functions.py 42-116 from the root element on. *)
  Definition read_log_from_tree (root : xml) : result eventlog :=
    let attrs := fold_left (fun acc kv => dset str_eq_dec acc (fst kv) (snd kv)) (attrib_of root) [] in
    bind (loopM read_child (children_of root) (mkLog [] attrs [] [] [] [], [])) (fun st =>
    let '(log, traces) := st in
    bind (mapM (read_trace (l_globals log)) traces) (fun ts =>
    Ok (mkLog ts (l_attrs log) (l_extensions log) (l_classifiers log) (l_properties log) (l_globals log)))).

  (** legacy/log/functions.py 145-151: types_to_names[type(value)], None when the type has no name. *)
  Definition type_name (v : value) : option pystr :=
    match v with
    | VStr _ => Some tag_string
    | VDate _ => Some tag_date
    | VInt _ => Some tag_int
    | VFloat _ => Some tag_float
    | VBool _ => Some tag_bool
    | VEvents _ | VActs _ | VOpaque _ => None
    end.

  (** str(value) for the serialisable types.  legacy/log/functions.py 157. *)
  Definition show_value (v : value) : pystr :=
    match v with
    | VStr s => s
    | VInt z => show_int z
    | VBool b => if b then str "True" else str "False"
    | VFloat r => r
    | VDate d => d
    | VEvents _ | VActs _ | VOpaque _ => []
    end.

  (** legacy/log/functions.py 154-158 *)
  Definition create_value_tag (name : pystr) (v : value) : result xml :=
    match type_name v with
    | Some t => Ok (Elem t [(attr_key, name); (attr_value, show_value v)] [])
    | None => Err KeyError
    end.

  (** legacy/log/functions.py 281-292 *)
  Definition check_if_default_value (log : eventlog) (entity key : pystr) (v : value) : bool :=
    match dget str_eq_dec (l_globals log) entity with
    | None => false
    | Some d => match dget str_eq_dec d key with None => false | Some dv => veq dv v end
    end.

  (** legacy/log/functions.py 277-278 *)
  Definition should_serialize (v : value) : bool := match type_name v with Some _ => true | None => false end.

  (** legacy/log/functions.py 250-257 and 261-268: the elements of a payload. *)
  Definition payload_elements (log : eventlog) (entity : pystr) (d : dict pystr value) : result (list xml) :=
    mapM (fun kv => create_value_tag (fst kv) (snd kv))
      (filter (fun kv => negb (check_if_default_value log entity (fst kv) (snd kv)) && should_serialize (snd kv)) d).

  (** legacy/log/functions.py 248-272 *)
  Definition trace_element (log : eventlog) (t : trace) : result xml :=
    bind (payload_elements log tag_trace (t_attrs t)) (fun attrs =>
    bind (mapM (fun e => bind (payload_elements log tag_event e) (fun c => Ok (Elem tag_event [] c))) (t_events t)) (fun events =>
    Ok (Elem tag_trace [] (attrs ++ events)))).

  (** d[k] = v for all items.  legacy/log/functions.py 218-219, 223-225. *)
  Definition set_all (d items : dict pystr pystr) : dict pystr pystr :=
    fold_left (fun acc kv => dset str_eq_dec acc (fst kv) (snd kv)) items d.

  (** legacy/log/functions.py 215-274; the TypeError of ET.tostring for a property that is no str comes last. *)
  Definition serialize_log_to_tree (log : eventlog) : result xml :=
    let exts := map (fun kv => Elem tag_extension (set_all [(ext_name, fst kv)] (snd kv)) []) (l_extensions log) in
    let classifiers := map (fun kv => Elem tag_classifier
        (set_all [] [(classifier_name, fst kv); (classifier_keys, join_space (snd kv))]) []) (l_classifiers log) in
    let properties := map (fun kv => Elem tag_string [(fst kv, show_value (snd kv))] []) (l_properties log) in
    bind (mapM (fun sc => bind (mapM (fun kv => create_value_tag (fst kv) (snd kv)) (snd sc)) (fun c =>
            Ok (Elem tag_global [(attr_scope, fst sc)] c))) (l_globals log)) (fun globals =>
    bind (mapM (trace_element log) (l_traces log)) (fun traces =>
    if forallb (fun kv => match snd kv with VStr _ => true | _ => false end) (l_properties log) then
      Ok (Elem tag_log (set_all [] (l_attrs log)) (exts ++ classifiers ++ properties ++ globals ++ traces))
    else Err TypeError)).
End Xes.
