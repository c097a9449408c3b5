(** Further theorems for C04, C05, C18, C20, C30, C31, C34 and C36. *)
From Coq Require Import Permutation Sorted Reals.
From Verif Require Import Py LogModel EqSpec HashModel PatternModel PatternSpec TreeModel ActModel ActSpec ActLogModel ActLogSpec
  TextModel XesModel XesSpec PosModel FilterModel TightSpec TightProofs.

(** C31: filling up the instances of a trace: what the creator makes of each gap, as it is, next to the instances
    of before; all sorted by start, the latest first. *)
Theorem C31_full_fill : forall creator l t, ordered 0 (length (t_events t)) l -> exists gaps,
  (forall a b, In (a, b) gaps <-> gap l (length (t_events t)) a b) /\ StronglySorted (fun p q => snd p < fst q) gaps /\
  latest_first (l ++ flat_map (fun ab => creator (piece (t_events t) (fst ab) (snd ab - fst ab))) gaps) (full_fill_trace creator l t).
Proof. exact full_fill_proof. Qed.
Print Assumptions C31_full_fill.

Theorem C31_full_fill_log : forall creator (l : eventlog) acts, length acts = length (l_traces l) ->
  length (full_fill_activities creator l acts) = length acts /\
  forall i a t, nth_error acts i = Some a -> nth_error (l_traces l) i = Some t ->
    nth_error (full_fill_activities creator l acts) i = Some (full_fill_trace creator a t).
Proof. exact full_fill_log_proof. Qed.
Print Assumptions C31_full_fill_log.

Definition a_node (n : string) (level : Z) : anode ndata := ANode (mkND (str n) level (str n) 1 (mkRS 0 1 0)) [string_poly_hash (str n)] [].
Definition an_event (n : string) : event := [(concept_name, VStr (str n))].
Example C31_full_fill_case : (* a b c d e with an instance over b c; each gap gets an instance at its own start, the latter twice *)
  let t := trace_of_events [an_event "a"; an_event "b"; an_event "c"; an_event "d"; an_event "e"] in
  let l := [mkInst (a_node "bc" 0) 1 2] in
  ordered 0 (length (t_events t)) l /\
  full_fill_activities (fun es => [mkInst (a_node "new" 0) 0 (length es)]) (log_of_traces [t; t]) [l; []] =
    [[mkInst (a_node "bc" 0) 1 2; mkInst (a_node "new" 0) 0 1; mkInst (a_node "new" 0) 0 2]; [mkInst (a_node "new" 0) 0 5]].
Proof. split; [cbn; unfold in_end; cbn; lia|]. vm_compute. reflexivity. Qed.

(** C34: the instances of a level, per trace, in their order. *)
Theorem C34_select_level : forall acts level,
  length (select_traces_activities_for_activity_level acts level) = length acts /\
  forall i a, nth_error acts i = Some a -> exists r, nth_error (select_traces_activities_for_activity_level acts level) i = Some r /\
    r = filter (fun x => if Z.eq_dec (nd_level (an_data (in_node x))) level then true else false) a.
Proof. exact select_level_proof. Qed.
Print Assumptions C34_select_level.
Example C34_select_level_case :
  select_traces_activities_for_activity_level [[mkInst (a_node "x" 1) 0 1; mkInst (a_node "y" 0) 1 1; mkInst (a_node "z" 2) 2 1]; []] 1 =
  [[mkInst (a_node "x" 1) 0 1]; []].
Proof. vm_compute. reflexivity. Qed.

(** C30: the names used in rewritten logs, and a trace whose instance covers an event with a wrong record. *)
Theorem C30_names : undefined_activity = str "UndefinedActivity" /\ underlying_events_key = str "UnderlyingEvents" /\
  underlying_activities_key = str "UnderlyingActivities".
Proof. exact (conj eq_refl (conj eq_refl eq_refl)). Qed.
Print Assumptions C30_names.

Theorem C30_wrong_record : forall uh st l t x e v, ordered 0 (length (t_events t)) l -> In x l ->
  In e (piece (t_events t) (in_start x) (in_length x)) -> eget e (str "UnderlyingActivities") = Some v -> (forall ids, v <> VActs ids) ->
  st <> OtherStrategy -> new_trace_from_activities uh st l t = Err TypeError.
Proof. exact bad_acts_proof. Qed.
Print Assumptions C30_wrong_record.
Example C30_wrong_record_case :
  new_trace_from_activities false InsertAllEvents [mkInst (a_node "x" 1) 1 1] (trace_of_events [an_event "a"; [(str "UnderlyingActivities", VInt 3)]]) = Err TypeError.
Proof. vm_compute. reflexivity. Qed.

(** C05: the document of a log, element by element, and how booleans are read. *)
Theorem C05_document : forall (parse_float parse_date : pystr -> result pystr) veq log,
  writable parse_float parse_date log -> l_properties log = [] -> serialize_log_to_tree veq log = Ok (document veq log).
Proof. exact document_proof. Qed.
Print Assumptions C05_document.
Example C05_document_case :
  document (fun _ _ => false) (mkLog [mkTrace [[(str "ok", VBool false); (str "n", VInt (-7)); (str "x", VOpaque 0)]] [(str "d", VDate (str "2020"))]] [(str "v", str "1")]
     [(str "Concept", [(str "prefix", str "p"); (str "uri", str "u")])] [(str "c", [str "k1"; str "k2"])] [] [(str "event", [(str "f", VFloat (str "1.5"))])]) =
  Elem (str "log") [(str "v", str "1")]
    [Elem (str "extension") [(str "name", str "Concept"); (str "prefix", str "p"); (str "uri", str "u")] [];
     Elem (str "classifier") [(str "name", str "c"); (str "keys", str "k1 k2")] [];
     Elem (str "global") [(str "scope", str "event")] [Elem (str "float") [(str "key", str "f"); (str "value", str "1.5")] []];
     Elem (str "trace") [] [Elem (str "date") [(str "key", str "d"); (str "value", str "2020")] [];
       Elem (str "event") [] [Elem (str "boolean") [(str "key", str "ok"); (str "value", str "False")] []; Elem (str "int") [(str "key", str "n"); (str "value", str "-7")] []]]].
Proof. vm_compute. reflexivity. Qed.

Theorem C05_boolean_read : forall (parse_float parse_date : pystr -> result pystr) namespace attrs children s,
  ~ In 125%N namespace -> dget str_eq_dec attrs (str "value") = Some s ->
  parse_value_tag parse_float parse_date (Elem (namespace ++ str "}boolean") attrs children) = Ok (VBool (negb (str_eqb s []))) /\
  parse_value_tag parse_float parse_date (Elem (str "boolean") attrs children) = Ok (VBool (negb (str_eqb s []))).
Proof. exact read_boolean_proof. Qed.
Print Assumptions C05_boolean_read.
Example C05_boolean_read_case :
  parse_value_tag (@Ok pystr) (@Ok pystr) (Elem (str "{http://www.xes-standard.org}boolean") [(str "key", str "k"); (str "value", str "false")] []) = Ok (VBool true) /\
  parse_value_tag (@Ok pystr) (@Ok pystr) (Elem (str "boolean") [(str "value", [])] []) = Ok (VBool false).
Proof. vm_compute. split; reflexivity. Qed.

Theorem C05_wrong_int : forall s e, parse_int s = Err e -> e = ValueError.
Proof. exact bad_int_proof. Qed.
Print Assumptions C05_wrong_int.
Example C05_wrong_int_case : parse_int [] = Err ValueError /\ parse_int (str "-") = Err ValueError /\ parse_int (str "12x") = Err ValueError.
Proof. vm_compute. repeat split; reflexivity. Qed.

(** C04: a log with an event that has no text as its name cannot be written; nothing is read with an empty separator. *)
Theorem C04_unwritable : forall log ts es pre e post,
  flat_map t_events (l_traces log) = pre ++ e :: post -> (forall e, In e pre -> named e) -> ~ named e ->
  serialize_log log ts es = Err (name_error e).
Proof. exact unwritable_proof. Qed.
Print Assumptions C04_unwritable.
Example C04_unwritable_case :
  serialize_log (log_of_traces [trace_of_events [an_event "a"]; trace_of_events [an_event "b"; [(concept_name, VInt 2)]; []]]) (str ";") (str ",") = Err TypeError /\
  serialize_log (log_of_traces [trace_of_events [an_event "a"]; trace_of_events [[]; [(concept_name, VInt 2)]]]) (str ";") (str ",") = Err KeyError.
Proof. vm_compute. split; reflexivity. Qed.

Theorem C04_no_separator : forall s ss, parse_log_from_strings (s :: ss) [] = Err ValueError /\ parse_log_from_string s [] = Err ValueError.
Proof. exact no_separator_proof. Qed.
Print Assumptions C04_no_separator.

(** C18: positions counted from the end, and the empty log. *)
Theorem C18_index : forall len i, (forall j, PosModel.py_index len i = Ok j <-> j < len /\ (i = Z.of_nat j \/ i = Z.of_nat j - Z.of_nat len)%Z) /\
  (forall e, PosModel.py_index len i = Err e -> e = IndexError).
Proof. exact (fun len i => conj (pos_index_proof len i) (pos_index_fails len i)). Qed.
Print Assumptions C18_index.
Example C18_index_case : PosModel.py_index 3 (-1) = Ok 2 /\ PosModel.py_index 3 3 = Err IndexError /\ PosModel.py_index 3 (-4) = Err IndexError.
Proof. vm_compute. repeat split; reflexivity. Qed.

Theorem C18_empty_log : forall (F : Type) (finish : list nat -> nat -> F) e cached,
  position_entropy finish [] e None = Err ValueError /\ position_entropy_fast finish [] e None cached = Err ValueError.
Proof. exact empty_log_proof. Qed.
Print Assumptions C18_empty_log.

(** C20: the comparisons are those of the numbers. *)
Theorem C20_comparisons : (forall x y, Rltb x y = true <-> (x < y)%R) /\ (forall x y, Rleb x y = true <-> (x <= y)%R).
Proof. exact comparisons_proof. Qed.
Print Assumptions C20_comparisons.

(** C36: extractors picked by a level that may be negative; a repeat set outside the log. *)
Theorem C36_index : forall (A : Type) (l : list A) i,
  (forall x, ActLogModel.py_index l i = Ok x <-> exists j, nth_error l j = Some x /\ (i = Z.of_nat j \/ i = Z.of_nat j - Z.of_nat (length l))%Z) /\
  (forall e, ActLogModel.py_index l i = Err e -> e = IndexError).
Proof. exact (fun A l i => conj (act_index_proof l i) (act_index_fails l i)). Qed.
Print Assumptions C36_index.
Theorem C36_slice : forall (A : Type) (l : list A) (a b : nat) (sa sb : bool), a < length l -> b < length l ->
  py_slice l (if sa then Z.of_nat a - Z.of_nat (length l) else Z.of_nat a) (if sb then Z.of_nat b - Z.of_nat (length l) else Z.of_nat b) = piece l a (b - a).
Proof. exact @act_slice_proof. Qed.
Print Assumptions C36_slice.
Example C36_slice_case : py_slice [1; 2; 3; 4] 1 (-1) = [2; 3] /\ py_slice [1; 2; 3; 4] (-3) (-1) = [2; 3] /\ ActLogModel.py_index [1; 2; 3] (-2) = Ok 2.
Proof. vm_compute. repeat split; reflexivity. Qed.

Theorem C36_repeat_outside : forall (l : eventlog) d exs adjust t x, (inst_level x < d)%Z ->
  length (l_traces l) <= rs_trace_index (nd_repeat_set (an_data (in_node x))) -> promote_trace l d exs adjust t x = Err IndexError.
Proof. exact bad_repeat_proof. Qed.
Print Assumptions C36_repeat_outside.
Example C36_repeat_outside_case :
  promote_trace (log_of_traces []) 1 [] true (trace_of_events []) (mkInst (a_node "x" 0) 0 1) = Err IndexError.
Proof. vm_compute. reflexivity. Qed.
