(** Property C70: logs which the backend makes of activity instances. *)
From Verif Require Import Py ReplayModel PatternModel PatternSpec TreeModel TreeSpec ActModel ActSpec RActModel RActSpec RLogModel RLogSpec RLogProofs.
From Verif Require SufModel.

(** The instances found in a log are in order, whatever the activities. *)
Theorem C70_found_in_order : forall A D (hash : A -> N) (name : D -> pystr) (log : list (list (revent A))) activities kind min_events fkind,
  exists acts, r_extract_instances name (map (map (fun e => hash (ev_about e))) log) activities kind min_events fkind = Ok acts /\ in_order acts log.
Proof. exact extracted_proof. Qed.
Print Assumptions C70_found_in_order.

(** With instances in order the new log is made without a panic; each position of a trace turns into what [place] says. *)
Theorem C70_new_log_exact : forall A D (strat : strategy A) (make : instance D -> A) log acts, in_order acts log ->
  exists new, new_log strat make log acts = Ok new /\ length new = length log /\
    Forall2 (fun p t => t = flat_map (place strat make (snd p) (fst p)) (seq 0 (length (snd p)))) (combine acts log) new.
Proof. exact new_log_proof. Qed.
Print Assumptions C70_new_log_exact.

(** Without the other events one event is left for each instance. *)
Theorem C70_instances_only : forall A D (make : instance D -> A) log acts, in_order acts log ->
  new_log DontInsert make log acts = Ok (map (fun p => map (fun x => REvent (make x) (Some (piece (snd p) (in_start x) (in_length x)))) (fst p)) (combine acts log)).
Proof. exact dont_insert_proof. Qed.
Print Assumptions C70_instances_only.

(** Putting the events back gives those at the bottom; nothing else is related by [leaves]. *)
Theorem C70_events_at_the_bottom : forall A (log : list (list (revent A))),
  Forall2 leaves log (substitute_log log) /\ forall other, Forall2 leaves log other -> other = substitute_log log.
Proof. exact substitute_proof. Qed.
Print Assumptions C70_events_at_the_bottom.

Theorem C70_count_of_events_at_the_bottom : forall A (log bottom : list (list (revent A))), Forall2 leaves log bottom -> count_underlying log = total_length bottom.
Proof. exact count_underlying_proof. Qed.
Print Assumptions C70_count_of_events_at_the_bottom.

(** With all events kept the old log can be got back. *)
Theorem C70_nothing_lost : forall A D (make : instance D -> A) log acts new bottom, in_order acts log -> new_log InsertAll make log acts = Ok new ->
  Forall2 leaves log bottom -> Forall2 leaves new bottom /\ substitute_log new = bottom /\ count_underlying new = count_underlying log.
Proof.
  intros A D make log acts new bottom Ho Hn Hb. pose proof (keep_log _ _ _ _ _ _ Ho Hn) as K. pose proof (proj2 (substitute_proof A log) _ Hb) as E.
  repeat split; [|congruence|rewrite !count_underlying_eq, K; reflexivity]. rewrite E, <- K. apply substitute_proof.
Qed.
Print Assumptions C70_nothing_lost.

(** No way of making a log adds events; each instance of n events takes away n - 1 at least, and with all events kept exactly. *)
Theorem C70_never_more_events : forall A D (strat : strategy A) (make : instance D -> A) log acts new, in_order acts log -> new_log strat make log acts = Ok new ->
  count_events new <= count_events log /\
  count_events new + list_sum (map in_length (concat acts)) <= count_events log + length (concat acts) /\
  (strat = InsertAll -> count_events new + list_sum (map in_length (concat acts)) = count_events log + length (concat acts)).
Proof. exact shrink_proof. Qed.
Print Assumptions C70_never_more_events.

(** Any number of rounds, with any instances. *)
Theorem C70_rounds : forall A D (make : instance D -> A) log later, rounds make log later ->
  substitute_log later = substitute_log log /\ count_underlying later = count_underlying log /\ count_events later <= count_events log.
Proof. exact rounds_proof. Qed.
Print Assumptions C70_rounds.

(** The log of the events outside of instances. *)
Theorem C70_unattached_exact : forall A D (log : list (list (revent A))) (acts : list (list (instance D))), in_order acts log ->
  exists r, unattached_log log acts = Ok r /\ length r = length log /\
  Forall2 (fun p t => t = flat_map (fun j => if inside (fst p) j then [] else event_of (snd p) j) (seq 0 (length (snd p)))) (combine acts log) r.
Proof. exact unattached_proof. Qed.
Print Assumptions C70_unattached_exact.

(** A log for each name of an event with events below: the events at the bottom of each such event, in order. *)
Theorem C70_logs_of_groups : forall A (name_of : A -> pystr) (log : list (list (revent A))), NoDup (dkeys (logs_from_log name_of log)) /\
  forall n, exists ts, Forall2 leaves (groups_named name_of n log) ts /\ entry (logs_from_log name_of log) n ts.
Proof. exact logs_from_log_proof. Qed.
Print Assumptions C70_logs_of_groups.

(** A log for each name of an activity of the level: the events of each instance, in order. *)
Theorem C70_logs_of_instances : forall A D (level_of : D -> nat) (node_name : D -> pystr) level acts (log : list (list (revent A))), in_order acts log ->
  exists logs, logs_from_instances level_of node_name log acts level = Ok logs /\
    NoDup (dkeys logs) /\ forall n, entry logs n (stretches_named level_of node_name level n acts log).
Proof. exact (@logs_from_instances_proof). Qed.
Print Assumptions C70_logs_of_instances.

(** Both agree on logs without events below events, however the rest is treated. *)
Theorem C70_both_ways_agree : forall A D (level_of : D -> nat) (node_name : D -> pystr) level (strat : strategy A) (make : instance D -> A) (name_of : A -> pystr) acts log new,
  in_order acts log -> Forall (Forall (fun e => ev_under e = None)) log ->
  (forall l x, In l acts -> In x l -> level_of (an_data (in_node x)) = level /\ name_of (make x) = node_name (an_data (in_node x))) ->
  new_log strat make log acts = Ok new -> logs_from_instances level_of node_name log acts level = Ok (logs_from_log name_of new).
Proof. exact (@agree_proof). Qed.
Print Assumptions C70_both_ways_agree.

(** Names of activities: the parts in brackets; a panic iff the pattern sticks out of the log. *)
Theorem C70_activity_name : forall A (name_of : A -> pystr) extract log (r : repeat_set) trace,
  nth_error log (rs_trace_index r) = Some trace -> rs_first_pos r + rs_length r <= length trace ->
  exists parts, activity_name name_of extract log r = Ok (bracketed parts) /\
    Forall2 (fun e part => shown_part extract (name_of (ev_about e)) part) (piece trace (rs_first_pos r) (rs_length r)) parts.
Proof.
  intros A name_of extract log r trace E L. eexists. split; [exact (name_proof A name_of extract log r trace E L)|].
  induction (piece trace (rs_first_pos r) (rs_length r)) as [|e es IH]; constructor; [apply part_shown|exact IH].
Qed.
Print Assumptions C70_activity_name.

Theorem C70_activity_name_panics : forall A (name_of : A -> pystr) extract (log : list (list (revent A))) (r : repeat_set), 0 < rs_length r ->
  (forall trace, nth_error log (rs_trace_index r) = Some trace -> length trace < rs_first_pos r + rs_length r) -> activity_name name_of extract log r = rpanic.
Proof. exact name_out_proof. Qed.
Print Assumptions C70_activity_name_panics.

(** Equal names mean equal parts, when no part has a closing bracket. *)
Theorem C70_names_tell_apart : forall A (name_of : A -> pystr) extract log (r1 r2 : repeat_set) t1 t2 n,
  nth_error log (rs_trace_index r1) = Some t1 -> nth_error log (rs_trace_index r2) = Some t2 -> rs_first_pos r1 + rs_length r1 <= length t1 -> rs_first_pos r2 + rs_length r2 <= length t2 ->
  (forall e part, In e t1 \/ In e t2 -> shown_part extract (name_of (ev_about e)) part -> ~ In closing part) ->
  activity_name name_of extract log r1 = Ok n -> activity_name name_of extract log r2 = Ok n ->
  Forall2 (fun e1 e2 => exists part, shown_part extract (name_of (ev_about e1)) part /\ shown_part extract (name_of (ev_about e2)) part)
    (piece t1 (rs_first_pos r1) (rs_length r1)) (piece t2 (rs_first_pos r2) (rs_length r2)).
Proof.
  intros A name_of extract log r1 r2 t1 t2 n E1 E2 L1 L2 H N1 N2.
  assert (X := names_proof A name_of extract log r1 r2 t1 t2 n E1 E2 L1 L2 (fun e He => H e _ He (part_shown extract _)) N1 N2).
  revert X. generalize (piece t2 (rs_first_pos r2) (rs_length r2)).
  induction (piece t1 (rs_first_pos r1) (rs_length r1)) as [|e es IH]; intros [|e' es'] X; cbn in X; try discriminate; constructor.
  - injection X as X _. eexists. split; [apply part_shown|]. rewrite X. apply part_shown.
  - apply IH. injection X as _ X. exact X.
Qed.
Print Assumptions C70_names_tell_apart.

Definition leaf (s : pystr) : revent pystr := REvent s None.
Definition log_case : list (list (revent pystr)) := [map leaf [str "x"; str "a"; str "b"; str "y"; str "z"; str "a"]; map leaf [str "b"]].
Definition acts_case : list (list (instance pystr)) := [[mkInst (ANode (str "ab") [1;2]%N []) 1 2; mkInst (ANode (str "ab") [1;2]%N []) 5 1]; []].
Definition make_case (x : instance pystr) : pystr := an_data (in_node x).
Lemma case_in_order : in_order acts_case log_case.
Proof. unfold in_order, acts_case, log_case. repeat constructor. Qed.
Example C70_all_case : new_log InsertAll make_case log_case acts_case =
  Ok [[leaf (str "x"); REvent (str "ab") (Some (map leaf [str "a"; str "b"])); leaf (str "y"); leaf (str "z"); REvent (str "ab") (Some [leaf (str "a")])]; [leaf (str "b")]].
Proof. vm_compute. reflexivity. Qed.
Example C70_single_case : new_log (InsertSingle (str "?")) make_case log_case acts_case =
  Ok [[leaf (str "?"); REvent (str "ab") (Some (map leaf [str "a"; str "b"])); leaf (str "?"); REvent (str "ab") (Some [leaf (str "a")])]; [leaf (str "?")]].
Proof. vm_compute. reflexivity. Qed.
Example C70_unattached_case : unattached_log log_case acts_case = Ok [map leaf [str "x"; str "y"; str "z"]; [leaf (str "b")]].
Proof. vm_compute. reflexivity. Qed.
Example C70_rounds_case : exists later, rounds make_case log_case later /\ count_events later = 4 /\ count_underlying later = 7 /\ substitute_log later = log_case.
Proof.
  eexists. split.
  - eapply rounds_more; [apply case_in_order|vm_compute; reflexivity|]. eapply (rounds_more _ _ [[mkInst (ANode (str "top") [] []) 1 3]; []]); [unfold in_order; repeat constructor|vm_compute; reflexivity|]. apply rounds_none.
  - vm_compute. repeat split.
Qed.
Example C70_logs_case : logs_from_instances (fun _ => 0) (fun n => n) log_case acts_case 0 = Ok [(str "ab", [map leaf [str "a"; str "b"]; [leaf (str "a")]])].
Proof. vm_compute. reflexivity. Qed.
Example C70_name_case : activity_name (fun n => n) (Some (fun _ => Some (0, 1))) [map leaf [str "x1"; str "a.b"; str "b"]] (mkRS 1 2 0) = Ok (str "(a)::(b)").
Proof. vm_compute. reflexivity. Qed.

(** With one event for each stretch outside of instances the old log is lost. *)
Theorem C70_nothing_lost_refuted : exists (log new : list (list (revent pystr))) (acts : list (list (instance pystr))),
  in_order acts log /\ new_log (InsertSingle (str "?")) make_case log acts = Ok new /\ substitute_log new <> substitute_log log /\ count_underlying new <> count_underlying log.
Proof. exists log_case. eexists. exists acts_case. split; [apply case_in_order|]. split; [vm_compute; reflexivity|]. split; vm_compute; discriminate. Qed.
Print Assumptions C70_nothing_lost_refuted.

(** Names do not tell activities apart: brackets of the events are not escaped. *)
Theorem C70_names_tell_apart_refuted : exists (log : list (list (revent pystr))) r1 r2 trace n, nth_error log 0 = Some trace /\ rs_trace_index r1 = 0 /\ rs_trace_index r2 = 0 /\
  activity_name (fun n => n) None log r1 = Ok n /\ activity_name (fun n => n) None log r2 = Ok n /\
  piece trace (rs_first_pos r1) (rs_length r1) <> piece trace (rs_first_pos r2) (rs_length r2).
Proof.
  exists [map leaf [str "a)::(b"; str "a"; str "b"]], (mkRS 0 1 0), (mkRS 1 2 0). eexists. eexists. split; [reflexivity|]. do 2 (split; [reflexivity|]).
  split; [vm_compute; reflexivity|]. split; [vm_compute; reflexivity|]. vm_compute. discriminate.
Qed.
Print Assumptions C70_names_tell_apart_refuted.

(** On logs with events below events the two ways differ: one keeps what is directly below, the other what is at the bottom. *)
Theorem C70_both_ways_agree_refuted : exists (log new : list (list (revent pystr))) (acts : list (list (instance pystr))) logs, in_order acts log /\
  new_log InsertAll make_case log acts = Ok new /\ logs_from_instances (fun _ => 0) (fun n => n) log acts 0 = Ok logs /\ logs <> logs_from_log (fun n => n) new.
Proof.
  exists [[REvent (str "g") (Some [leaf (str "a")])]]. eexists. exists [[mkInst (ANode (str "h") [] []) 0 1]]. eexists. split; [unfold in_order; repeat constructor|]. split; [vm_compute; reflexivity|].
  split; [vm_compute; reflexivity|]. vm_compute. discriminate.
Qed.
Print Assumptions C70_both_ways_agree_refuted.
