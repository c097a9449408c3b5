(** Model of the parts that report on activities and mark events with them:
    legacy/pipelines/analysis/patterns/patterns_parts.py 149-188, 329-342, 453-456, 459-488, 497-547.
    Simplifications: what print writes is the list of its lines, a file is the text written to it
    (opening and closing it is left out); marking an event changes it in place in Python, here the
    changed log is the result: the events of a log are taken to be different objects. *)
From Verif Require Import Py XesModel LogModel HashModel PatternModel TreeModel ActModel ActLogModel InfoModel HighModel.

(** "\n".  Written in legacy/pipelines/analysis/patterns/patterns_parts.py 463-530. *)
Definition newline : pystr := [10%N].

(** PrintActivities.execute, patterns_parts.py 153-162. *)
Definition print_activities (do_print : bool) (activities : list (anode ndata)) : list pystr :=
  if do_print then str "Found activities:" :: flat_map (fun a => [nd_name (an_data a); []]) activities else [].
(** PrintFoundActivitiesCount.execute, patterns_parts.py 453-456. *)
Definition print_count (activities : list (anode ndata)) : list pystr :=
  [str "Discovered " ++ show_int (Z.of_nat (length activities)) ++ str " activities"].

(** PrintUnattachedEvents.execute, patterns_parts.py 166-174: the list printed; [order] is the order of
    iteration of the set; a name that is no str is an error as in [name_of_event]. *)
Definition unattached_names (order : list pystr -> list pystr) (l : eventlog) (instances : list (list inst)) : result (list pystr) :=
  bind (mapM name_of_event (flat_map t_events (l_traces (create_unattached_events_log l instances)))) (fun names =>
  Ok (order (nodup str_eq_dec names))).
(** CalculatePercentageOfUnattachedEvents.execute, patterns_parts.py 178-188: numerator and denominator of
    the number printed (the division is done by Python), nothing for an empty log. *)
Definition unattached_share (l : eventlog) (instances : list (list inst)) : option (nat * nat) :=
  let events_log := create_unattached_events_log l instances in
  let unattached_events_count := list_sum (map (fun t => length (t_events t)) (l_traces events_log)) in
  let events_count := calculate_events_count (map t_events (l_traces l)) in
  if events_count =? 0 then None else Some (unattached_events_count, events_count).

(** How many nodes a forest has: a bound for the loops below.  The loop: legacy/pipelines/analysis/patterns/patterns_parts.py 329-342. *)
Fixpoint node_count (a : anode ndata) : nat :=
  match a with ANode _ _ c => S (list_sum (map node_count c)) end.
(** The line of PrintActivitiesNamesToHashes, patterns_parts.py 338. *)
Definition hash_line (a : anode ndata) : pystr :=
  show_int (Z.of_N (string_poly_hash (nd_name (an_data a)))) ++ str " = " ++ nd_name (an_data a).
(** The loop of PrintActivitiesNamesToHashes.execute, patterns_parts.py 336-340. *)
Fixpoint hashes_loop (fuel : nat) (q : list (anode ndata)) : result (list pystr) :=
  match fuel with
  | O => Err Diverges
  | S fuel' =>
      match q with
      | [] => Ok []
      | current_activity :: q' =>
          bind (hashes_loop fuel' (q' ++ an_children current_activity)) (fun r => Ok (hash_line current_activity :: r))
      end
  end.
(** PrintActivitiesNamesToHashes.execute, patterns_parts.py 330-342. *)
Definition print_names_to_hashes (activities : list (anode ndata)) : result (list pystr) :=
  hashes_loop (S (list_sum (map node_count activities))) activities.

(** The loop of SaveAllActivitiesNames.execute, patterns_parts.py 472-483: the names written.  q is kept
    reversed: q.pop() takes the head, the children are pushed one after the other. *)
Fixpoint names_loop (fuel : nat) (q : list (anode ndata)) (visited : list pystr) : result (list pystr) :=
  match fuel with
  | O => Err Diverges
  | S fuel' =>
      match q with
      | [] => Ok []
      | current_activity :: q' =>
          let name := nd_name (an_data current_activity) in
          if existsb (str_eqb name) visited then names_loop fuel' q' visited
          else bind (names_loop fuel' (rev (an_children current_activity) ++ q') (name :: visited)) (fun r => Ok (name :: r))
      end
  end.
(** The names written for one level, patterns_parts.py 470-483. *)
Definition names_of_level (activities_for_level : list (anode ndata)) : result (list pystr) :=
  names_loop (S (list_sum (map node_count activities_for_level))) (rev activities_for_level) [].
(** 4 * '=====…', patterns_parts.py 466: 49 characters. *)
Definition sep_string : pystr := repeat 61%N (4 * 49).
(** SaveAllActivitiesNames.execute, patterns_parts.py 463-488: the text of the file. *)
Definition save_all_names (activities : list (anode ndata)) : result pystr :=
  bind (mapM (fun p => bind (names_of_level (snd p)) (fun names =>
    Ok (str "ACTIVITIES LEVEL " ++ show_int (fst p) ++ newline ++ newline ++ sep_string ++ newline ++
        flat_map (fun n => n ++ newline) names ++ sep_string ++ newline ++ newline)))
    (split_activities_by_level activities)) (fun ts => Ok (concat ts)).

(** SaveAllActivitiesInstancesNames.execute, patterns_parts.py 501-515: the text of the file.  Nodes are
    compared by identity (ActivityNode has no __eq__). *)
Definition save_instances_names (instances : list (list inst)) : pystr :=
  snd (fold_left (fun st activity =>
         let node := an_data (in_node activity) in
         if existsb (N.eqb (nd_id node)) (fst st) then st
         else (fst st ++ [nd_id node], snd st ++ nd_unique node ++ str "=" ++ nd_name node ++ newline))
       (concat instances) ([], [])).

(** The line for one instance, WriteActivitiesInstancesIndices, patterns_parts.py 530. *)
Definition instance_line (x : inst) : pystr :=
  str "(" ++ nd_unique (an_data (in_node x)) ++ str ", " ++ show_int (Z.of_nat (in_start x)) ++ str ", " ++ show_int (Z.of_nat (in_length x)) ++ str ")" ++ newline.
(** WriteActivitiesInstancesIndices.execute, patterns_parts.py 522-535, from trace_index on. *)
Fixpoint write_indices (trace_index : nat) (instances : list (list inst)) : pystr :=
  match instances with
  | [] => []
  | trace_activities :: r =>
      str "Trace " ++ show_int (Z.of_nat trace_index) ++ newline ++ flat_map instance_line trace_activities ++ newline ++ write_indices (S trace_index) r
  end.

(** The key 'activity', patterns_parts.py 545. *)
Definition activity_key : pystr := str "activity".
(** trace[i]['activity'] = name, patterns_parts.py 545. *)
Fixpoint mark_event (name : pystr) (es : list event) (i : nat) : result (list event) :=
  match es, i with
  | [], _ => Err IndexError
  | e :: r, O => Ok (eset e activity_key (VStr name) :: r)
  | e :: r, S i' => bind (mark_event name r i') (fun r' => Ok (e :: r'))
  end.
(** The events of one trace, patterns_parts.py 543-545. *)
Definition mark_trace (trace_activities : list inst) (es : list event) : result (list event) :=
  loopM (fun es activity =>
    loopM (fun es i => mark_event (nd_unique (an_data (in_node activity))) es i) (range (in_start activity) (in_start activity + in_length activity)) es)
    trace_activities es.
(** AddActivityNameToAllEvents.execute, patterns_parts.py 539-547: the events of all traces afterwards;
    zip ends with the shorter list, further traces are not touched. *)
Fixpoint mark_log (instances : list (list inst)) (traces : list (list event)) : result (list (list event)) :=
  match instances, traces with
  | a :: ar, t :: tr => bind (mark_trace a t) (fun t' => bind (mark_log ar tr) (fun r => Ok (t' :: r)))
  | _, _ => Ok traces
  end.
