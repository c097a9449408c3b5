(** Logs from and to pm4py, legacy/log/pm4py_converters.py, the first parts of a pipeline,
    legacy/pipelines/start/start_parts.py, and the patch of generated modules, src/python/infra/generate_models.py 52-66.
    pm4py's classes are lists and dictionaries with attributes; pm4py's own code is not in the repository, what is used of it
    here is building an empty log, trace or event, appending and setting a key.  Copies are equal values ([LogModel] has
    no identities).  A text file is its text; universal newlines have been applied. *)
From Verif Require Import Py LogModel.

(** pm4py's Trace and EventLog as the converters see them, pm4py_converters.py 7-24. *)
Record pm_trace := mkPT { pt_events : list (dict pystr value); pt_attrs : dict pystr value }.
(** pm4py_converters.py 7-24. *)
Record pm_log := mkPL {
  pl_traces : list pm_trace; pl_attrs : dict pystr pystr; pl_properties : dict pystr value;
  pl_classifiers : dict pystr (list pystr); pl_extensions : dict pystr (dict pystr pystr);
  pl_omni_present : dict pystr (dict pystr value) }.

(** pm4py_event_to_my_event, pm4py_converters.py 27-28. *)
Definition event_from_pm (e : dict pystr value) : event := e.
(** my_event_to_pm4py_event, pm4py_converters.py 31-36. *)
Definition event_to_pm (e : event) : dict pystr value := fold_left (fun d kv => dset str_eq_dec d (fst kv) (snd kv)) e [].
(** from_pm4py_log, pm4py_converters.py 7-24. *)
Definition from_pm4py_log (log : pm_log) : eventlog :=
  let my_log := mkLog [] (pl_attrs log) (pl_extensions log) (pl_classifiers log) (pl_properties log) (pl_omni_present log) in
  fold_left (fun l t =>
    let my_trace := fold_left (fun mt e => mkTrace (t_events mt ++ [event_from_pm e]) (t_attrs mt)) (pt_events t) (mkTrace [] (pt_attrs t)) in
    mkLog (l_traces l ++ [my_trace]) (l_attrs l) (l_extensions l) (l_classifiers l) (l_properties l) (l_globals l)) (pl_traces log) my_log.
(** to_pm4py_log, pm4py_converters.py 39-48. *)
Definition to_pm4py_log (my_log : eventlog) : pm_log :=
  fold_left (fun l t =>
    let pt := fold_left (fun p e => mkPT (pt_events p ++ [event_to_pm e]) (pt_attrs p)) (t_events t) (mkPT [] []) in
    mkPL (pl_traces l ++ [pt]) (pl_attrs l) (pl_properties l) (pl_classifiers l) (pl_extensions l) (pl_omni_present l))
    (l_traces my_log) (mkPL [] [] [] [] [] []).

(** What a pipeline may be started with, start_parts.py 7-24: a text, a log or anything else. *)
Inductive start_input := InText (s : pystr) | InLog (l : eventlog) | InOther (n : N).
(** ReadLogFromXes, start_parts.py 7-11; [read] is read_log_from_xes. *)
Definition read_log_part (read : pystr -> result eventlog) (i : start_input) : result (option eventlog) :=
  match i with InText s => bind (read s) (fun l => Ok (Some l)) | _ => Err TypeError end.
(** UseExistingLog, start_parts.py 15-19. *)
Definition use_log_part (i : start_input) : result (option eventlog) :=
  match i with InLog l => Ok (Some l) | _ => Err ValueError end.
(** EmptyStartPart, start_parts.py 23-24. *)
Definition empty_start_part (i : start_input) : result (option eventlog) := Ok None.

(** str.split with one character, generate_models.py 57, 77. *)
Fixpoint split_on (c : N) (l : pystr) : list pystr :=
  match l with
  | [] => [[]]
  | x :: r => if N.eqb x c then [] :: split_on c r
              else match split_on c r with w :: ws => (x :: w) :: ws | [] => [[x]] end
  end.
(** str.join, generate_models.py 60, 66. *)
Fixpoint join_with (c : N) (ws : list pystr) : pystr :=
  match ws with [] => [] | [w] => w | w :: r => w ++ c :: join_with c r end.
(** readlines, generate_models.py 55: each line with its newline, the last one as it is, if there is any. *)
Definition readlines (text : pystr) : list pystr :=
  let segs := split_on 10 text in
  map (fun s => s ++ [10%N]) (removelast segs) ++ match last segs [] with [] => [] | s => [s] end.
(** a in b for texts, generate_models.py 56. *)
Fixpoint starts_with (p l : pystr) : bool :=
  match p, l with [], _ => true | x :: p', y :: l' => (N.eqb x y && starts_with p' l')%bool | _ :: _, [] => false end.
(** generate_models.py 56. *)
Fixpoint contains (p l : pystr) : bool := (starts_with p l || match l with [] => false | _ :: r => contains p r end)%bool.
(** The body of the loop, generate_models.py 56-62. *)
Definition patch_line (common : list pystr) (package line : pystr) : result pystr :=
  if contains (str "import ") line
  then match split_on 32 line with
       | w0 :: w1 :: ws =>
           Ok (join_with 32 (w0 :: (if existsb (str_eqb w1) common then package ++ str ".models." ++ w1 else w1) :: ws))
       | _ => Err IndexError
       end
  else Ok line.
(** patch_common_types, generate_models.py 52-66: the text before and after. *)
Definition patch_text (common : list pystr) (package text : pystr) : result pystr :=
  bind (mapM (patch_line common package) (readlines text)) (fun ls => Ok (join_with 10 ls)).
(** The names of the generated modules, generate_models.py 31-36, for the files of the directory without extension. *)
Definition common_files (names : list pystr) : list pystr := flat_map (fun n => [n ++ str "_pb2"; n ++ str "_pb2_grpc"]) names.
