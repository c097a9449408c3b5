(** Model of the text log format: legacy/log/functions.py 161-212 and str.split / str +=. *)
From Verif Require Import Py LogModel.

(** s.startswith(p).  Needed for s.split, legacy/log/functions.py 70, 177. *)
Fixpoint starts_with (p s : pystr) : bool :=
  match p, s with
  | [], _ => true
  | _ :: _, [] => false
  | a :: p', b :: s' => N.eqb a b && starts_with p' s'
  end.

(** s.split(sep): cut at the leftmost occurrence of sep, continue behind it.  [skip] counts the
    characters of the separator still to be passed over, [cur] is the current piece.  legacy/log/functions.py 70, 177. *)
Fixpoint split_go (sep s : pystr) (skip : nat) (cur : pystr) : list pystr :=
  match s with
  | [] => [cur]
  | c :: s' =>
      match skip with
      | S k => split_go sep s' k cur
      | O => if starts_with sep s then cur :: split_go sep s' (length sep - 1) []
             else split_go sep s' 0 (cur ++ [c])
      end
  end.
(** ValueError for an empty separator.  s.split(sep), legacy/log/functions.py 70, 177. *)
Definition py_split (s sep : pystr) : result (list pystr) :=
  match sep with [] => Err ValueError | _ => Ok (split_go sep s 0 []) end.

(** functions.py 175-181 *)
Definition parse_trace_from_string (string separator : pystr) : result trace :=
  bind (py_split string separator) (fun parts =>
    Ok (trace_of_events (map (fun part => [(concept_name, VStr part)]) parts))).

(** functions.py 161-166 *)
Definition parse_log_from_strings (strings : list pystr) (separator : pystr) : result eventlog :=
  bind (mapM (fun s => parse_trace_from_string s separator) strings) (fun ts => Ok (log_of_traces ts)).

(** functions.py 169-172 *)
Definition parse_log_from_string (string separator : pystr) : result eventlog :=
  bind (parse_trace_from_string string separator) (fun t => Ok (log_of_traces [t])).

(** event[concept_name] used as a str (legacy/log/functions.py 193): KeyError when missing, TypeError when the
    value is no str. *)
Definition event_name (e : event) : result pystr :=
  bind (egetitem e concept_name) (fun v => match v with VStr s => Ok s | _ => Err TypeError end).

(** functions.py 189-193: the inner loop, [event_index] counts from 0. *)
Fixpoint serialize_events (events_separator : pystr) (event_index : nat) (es : list event) (result : pystr) : Py.result pystr :=
  match es with
  | [] => Ok result
  | e :: es' =>
      let result' := if 0 <? event_index then result ++ events_separator else result in
      bind (event_name e) (fun n => serialize_events events_separator (S event_index) es' (result' ++ n))
  end.

(** functions.py 188-196: the outer loop. *)
Fixpoint serialize_traces (traces_separator events_separator : pystr) (log_len trace_index : nat)
  (ts : list trace) (result : pystr) : Py.result pystr :=
  match ts with
  | [] => Ok result
  | t :: ts' =>
      bind (serialize_events events_separator 0 (t_events t) result) (fun result' =>
        serialize_traces traces_separator events_separator log_len (S trace_index) ts'
          (if (Z.of_nat trace_index <? Z.of_nat log_len - 1)%Z then result' ++ traces_separator else result'))
  end.

(** functions.py 184-198 *)
Definition serialize_log (log : eventlog) (traces_separator events_separator : pystr) : result pystr :=
  serialize_traces traces_separator events_separator (length (l_traces log)) 0 (l_traces log) [].

(** functions.py 201-212 *)
Fixpoint serialize_logs_from (index : nat) (logs : list eventlog) (ls ts es : pystr) (result : pystr) : Py.result pystr :=
  match logs with
  | [] => Ok result
  | log :: logs' =>
      let result' := if 0 <? index then result ++ ls else result in
      bind (serialize_log log ts es) (fun s => serialize_logs_from (S index) logs' ls ts es (result' ++ s))
  end.
(** See above.  legacy/log/functions.py 201-212. *)
Definition serialize_logs (logs : list eventlog) (ls ts es : pystr) : result pystr :=
  serialize_logs_from 0 logs ls ts es [].
