(** Properties C29, C30, C31, C32, C34, C36: logs rewritten with activity instances. *)
From Coq Require Import Permutation Sorted.
From Verif Require Import Py LogModel HashModel PatternModel PatternSpec TreeModel ActModel ActSpec ActLogModel ActLogSpec ActLogProofs.

(** C30: the rewritten trace, position by position: an instance contributes its event at its start
    and nothing further; an uncovered position contributes itself, or the undefined event when it
    starts a run, or nothing. *)
Theorem C30_rewritten_trace : forall uh st l t, st <> OtherStrategy -> ordered 0 (length (t_events t)) l -> (forall e, In e (t_events t) -> acts_ok e) ->
  new_trace_from_activities uh st l t = Ok (trace_of_events (flat_map (at_position uh st (t_events t) l) (seq 0 (length (t_events t))))).
Proof. exact rewritten_proof. Qed.
Print Assumptions C30_rewritten_trace.

Theorem C30_rewritten_log : forall uh st l acts, st <> OtherStrategy ->
  Forall2 (fun a t => ordered 0 (length (t_events t)) a /\ forall e, In e (t_events t) -> acts_ok e) acts (l_traces l) ->
  exists ts, create_new_log_from_activities l acts uh st = Ok (log_of_traces ts) /\
    Forall2 (fun p t' => t' = trace_of_events (flat_map (at_position uh st (t_events (snd p)) (fst p)) (seq 0 (length (t_events (snd p)))))) (combine acts (l_traces l)) ts /\
    length ts = length (l_traces l).
Proof. exact rewritten_log_proof. Qed.
Print Assumptions C30_rewritten_log.

Theorem C30_dont_insert : forall uh l t, ordered 0 (length (t_events t)) l -> (forall e, In e (t_events t) -> acts_ok e) ->
  new_trace_from_activities uh DontInsert l t = Ok (trace_of_events (map (event_of uh (t_events t)) l)).
Proof. exact dont_insert_proof. Qed.
Print Assumptions C30_dont_insert.

(** Any other object as strategy: fails exactly when something is uncovered. *)
Theorem C30_unknown_strategy : forall uh l t, ordered 0 (length (t_events t)) l -> (forall e, In e (t_events t) -> acts_ok e) ->
  new_trace_from_activities uh OtherStrategy l t =
  if forallb (covered_b l) (seq 0 (length (t_events t))) then Ok (trace_of_events (map (event_of uh (t_events t)) l)) else Err ValueError.
Proof. exact other_strategy_proof. Qed.
Print Assumptions C30_unknown_strategy.

(** C29: expanding the rewritten trace gives what expanding the original gives (itself, when it has no
    underlying events: C32_leaves_unchanged). *)
Theorem C29_expand_back : forall uh l t t', ordered 0 (length (t_events t)) l ->
  new_trace_from_activities uh InsertAllEvents l t = Ok t' ->
  substitute_original_events (t_events t') = substitute_original_events (t_events t).
Proof. exact expand_back_proof. Qed.
Print Assumptions C29_expand_back.

Theorem C29_expand_back_log : forall uh (l l' : eventlog) acts,
  Forall2 (fun a t => ordered 0 (length (t_events t)) a) acts (l_traces l) ->
  create_new_log_from_activities l acts uh InsertAllEvents = Ok l' ->
  Forall2 (fun t t' => substitute_original_events (t_events t') = substitute_original_events (t_events t)) (l_traces l) (l_traces l') /\
  calculate_underlying_events_count l' = calculate_underlying_events_count l.
Proof. exact expand_back_log_proof. Qed.
Print Assumptions C29_expand_back_log.

Theorem C29_length : forall uh l t t', ordered 0 (length (t_events t)) l -> new_trace_from_activities uh InsertAllEvents l t = Ok t' ->
  length (t_events t') + list_sum (map (@in_length ndata) l) = length (t_events t) + length l.
Proof. exact length_proof. Qed.
Print Assumptions C29_length.

Theorem C29_never_longer : forall uh l t t', ordered 0 (length (t_events t)) l -> new_trace_from_activities uh InsertAllEvents l t = Ok t' ->
  length (t_events t') <= length (t_events t).
Proof. exact shorter_proof. Qed.
Print Assumptions C29_never_longer.

(** C31: earlier instances kept in order, everything new lies in a maximal run of uncovered positions of
    at least the minimal length and is what extraction finds in that run; sorted and disjoint. *)
Theorem C31_add_unattached : forall nodes ce accept minimum narrow l t cs,
  ordered 0 (length (t_events t)) l -> mapM ce (t_events t) = Ok cs ->
  exists r, add_unattached_trace nodes ce accept minimum narrow l t = Ok r /\ ordered 0 (length (t_events t)) r /\ subseq l r /\
    forall x, In x r <-> In x l \/
      exists a b ys y, gap l (length (t_events t)) a b /\ minimum <= b - a /\
        extract_trace nd_name nodes narrow accept (piece (map string_poly_hash cs) a (b - a)) = Some ys /\ In y ys /\ x = shift a y.
Proof. exact add_unattached_proof. Qed.
Print Assumptions C31_add_unattached.

Theorem C31_covered : forall nodes ce minimum narrow l t cs r,
  ordered 0 (length (t_events t)) l -> mapM ce (t_events t) = Ok cs ->
  add_unattached_trace nodes ce (fun _ => true) minimum narrow l t = Ok r ->
  forall j c, nth_error cs j = Some c ->
    (covered r j <-> covered l j \/ exists a b, gap l (length (t_events t)) a b /\ a <= j < b /\ minimum <= b - a /\ exists n, In n nodes /\ In (string_poly_hash c) (an_set n)).
Proof. exact add_covered_proof. Qed.
Print Assumptions C31_covered.

(** The log of unattached events: the uncovered positions. *)
Theorem C31_unattached_log : forall l t, ordered 0 (length (t_events t)) l ->
  unattached_events l t = flat_map (fun j => if covered_b l j then [] else match nth_error (t_events t) j with Some e => [e] | None => [] end) (seq 0 (length (t_events t))).
Proof. exact unattached_proof. Qed.
Print Assumptions C31_unattached_log.

(** C32 *)
Theorem C32_expansion_exact : forall es l, substitute_original_events es = Ok l <-> expands es l.
Proof. exact expands_exact_proof. Qed.
Print Assumptions C32_expansion_exact.

Theorem C32_expansion_fails : forall es x, substitute_original_events es = Err x <-> x = TypeError /\ broken es.
Proof. exact substitute_fails_proof. Qed.
Print Assumptions C32_expansion_fails.

Theorem C32_complete_and_idempotent : forall es l, substitute_original_events es = Ok l ->
  substitute_original_events l = Ok l /\ forall e, In e l -> eget e underlying_events_key = None.
Proof. exact idempotent_proof. Qed.
Print Assumptions C32_complete_and_idempotent.

Theorem C32_leaves_unchanged : forall l, (forall e, In e l -> eget e underlying_events_key = None) -> substitute_original_events l = Ok l.
Proof. intros l H. exact (proj2 (expands_exact_proof l l) (expands_leaves l H)). Qed.
Print Assumptions C32_leaves_unchanged.

Theorem C32_distributes : forall a b, substitute_original_events (a ++ b) =
  bind (substitute_original_events a) (fun xs => bind (substitute_original_events b) (fun ys => Ok (xs ++ ys))).
Proof. exact substitute_app. Qed.
Print Assumptions C32_distributes.

Theorem C32_count : forall l : eventlog,
  calculate_underlying_events_count l = bind (substitute_original_events (flat_map t_events (l_traces l))) (fun es => Ok (length es)).
Proof. exact count_log_proof. Qed.
Print Assumptions C32_count.

(** The queue visits the same events, in some order, and always ends. *)
Theorem C32_visits : forall e,
  (forall l, substitute_original_events [e] = Ok l -> exists l', execute_with_underlying_events e = Ok l' /\ Permutation l l') /\
  (forall x, substitute_original_events [e] = Err x -> execute_with_underlying_events e = Err x).
Proof. exact execute_proof. Qed.
Print Assumptions C32_visits.

(** C34 *)
Theorem C34_by_level : forall l, exists ks, split_activities_by_level l = map (fun k => (k, filter (fun a => (nd_level (an_data a) =? k)%Z) l)) ks /\
  StronglySorted Z.lt ks /\ (forall k, In k ks <-> exists a, In a l /\ nd_level (an_data a) = k).
Proof. exact by_level_proof. Qed.
Print Assumptions C34_by_level.

Theorem C34_for_level : forall l k, get_activities_for_level l k =
  if existsb (fun a => (nd_level (an_data a) =? k)%Z) l then Ok (filter (fun a => (nd_level (an_data a) =? k)%Z) l) else Err KeyError.
Proof. exact for_level_proof. Qed.
Print Assumptions C34_for_level.

Theorem C34_by_size : forall D (name : D -> pystr) (l : list (anode D)), exists ks gs, split_by_size name l = gs /\ StronglySorted lt ks /\
  (forall k, In k ks <-> exists a, In a l /\ length (an_set a) = k) /\
  Forall2 (fun k g => Permutation g (filter (fun a => length (an_set a) =? k) l) /\
                      StronglySorted (fun a b => str_leb (name (an_data a)) (name (an_data b)) = true) g) ks gs.
Proof. exact by_size_proof. Qed.
Print Assumptions C34_by_size.

(** C36: one trace per instance of the name and level, in order of occurrence, holding the renamed
    events of the instance; names without such instances are absent. *)
Theorem C36_logs_per_activity : forall ce g level (l : eventlog) acts,
  (forall t e, In t (l_traces l) -> In e (t_events t) -> ce e = Ok (g e)) ->
  exists d, create_logs_for_activities ce level l acts = Ok d /\ NoDup (dkeys d) /\
    forall nm, dget str_eq_dec d nm =
      match named_traces (fun t x => if (nd_level (an_data (in_node x)) =? level)%Z then Some (trace_of_events (renamed g (piece (t_events t) (in_start x) (in_length x)))) else None) nm (combine acts (l_traces l)) with
      | [] => None | ts => Some ts end.
Proof. exact logs_for_level_proof. Qed.
Print Assumptions C36_logs_per_activity.

(** With promotion of the lower levels (events adjusted to the highest level). *)
Theorem C36_promoted_logs : forall (l : eventlog) d gs acts, length gs = S d ->
  (forall a x, In a acts -> In x a -> (0 <= nd_level (an_data (in_node x)))%Z /\ rs_trace_index (nd_repeat_set (an_data (in_node x))) < length (l_traces l)) ->
  exists r, create_logs_for_activities_with_promote l acts (Z.of_nat d) (map (fun g e => Ok (g e)) gs) true = Ok r /\ NoDup (dkeys r) /\
    forall nm, dget str_eq_dec r nm = match named_traces (promoted l d gs) nm (combine acts (l_traces l)) with [] => None | ts => Some ts end.
Proof. exact promoted_logs_proof. Qed.
Print Assumptions C36_promoted_logs.

(** A trace a b c d e with the instances b c (a level 0 activity) and e (level 1). *)
Definition ev (s : string) : event := [(concept_name, VStr (str s))].
Definition ev_trace : trace := trace_of_events [ev "a"; ev "b"; ev "c"; ev "d"; ev "e"].
Definition node_bc : anode ndata := ANode (mkND (str "b::c") 0 (str "Activity_7") 7 (mkRS 1 2 0)) [string_poly_hash (str "b"); string_poly_hash (str "c")] [].
Definition node_e : anode ndata := ANode (mkND (str "e") 1 (str "Activity_8") 8 (mkRS 4 1 0)) [string_poly_hash (str "e")] [].
Definition two_instances : list (instance ndata) := [mkInst node_bc 1 2; mkInst node_e 4 1].
Example C29_hypotheses : ordered 0 (length (t_events ev_trace)) two_instances /\ forall e, In e (t_events ev_trace) -> acts_ok e.
Proof. split; [cbn; unfold in_end; cbn; lia|]. cbn. intros e H. right. repeat destruct H as [<-|H]; try reflexivity. destruct H. Qed.
Example C30_case :
  new_trace_from_activities false InsertAsSingleEvent two_instances ev_trace =
  Ok (trace_of_events [[(concept_name, VStr undefined_activity)]; event_of false (t_events ev_trace) (mkInst node_bc 1 2);
                       [(concept_name, VStr undefined_activity)]; event_of false (t_events ev_trace) (mkInst node_e 4 1)]).
Proof. vm_compute. reflexivity. Qed.

(** The undefined event does not hold the events it stands for: expansion loses them. *)
Theorem C30_undefined_events_kept_refuted : exists l t t', ordered 0 (length (t_events t)) l /\
  new_trace_from_activities false InsertAsSingleEvent l t = Ok t' /\
  bind (substitute_original_events (t_events t')) (fun es => Ok (length es)) <> bind (substitute_original_events (t_events t)) (fun es => Ok (length es)).
Proof.
  exists [], (trace_of_events [ev "a"; ev "b"]), (trace_of_events [[(concept_name, VStr undefined_activity)]]).
  split; [cbn; lia|]. split; [vm_compute; reflexivity|]. vm_compute. discriminate.
Qed.
Print Assumptions C30_undefined_events_kept_refuted.

(** full_fill_activities does not move what it finds in a gap to the place of the gap. *)
Theorem C31_full_fill_ordered_refuted : exists creator l t, ordered 0 (length (t_events t)) l /\
  (forall es, ordered 0 (length es) (creator es)) /\ ~ ordered 0 (length (t_events t)) (rev (full_fill_trace creator l t)).
Proof.
  exists (fun es => match es with [] => [] | _ => [mkInst node_e 0 1] end), [mkInst node_bc 0 2], (trace_of_events [ev "b"; ev "c"; ev "e"]).
  split; [cbn; unfold in_end; cbn; lia|]. split.
  - intros [|e es]; cbn; unfold in_end; cbn; lia.
  - vm_compute. intros (_ & _ & H & _). lia.
Qed.
Print Assumptions C31_full_fill_ordered_refuted.

Example C31_case :
  add_unattached_trace [node_e] name_of_event (fun _ => true) 1 true [mkInst node_bc 1 2] ev_trace = Ok two_instances.
Proof. vm_compute. reflexivity. Qed.
Example C32_case : (* nested two deep *)
  let e1 := [(concept_name, VStr (str "x")); (underlying_events_key, VEvents [ev "a"; ev "b"])] in
  let e2 := [(underlying_events_key, VEvents [e1; ev "c"])] in
  substitute_original_events [e2; ev "d"] = Ok [ev "a"; ev "b"; ev "c"; ev "d"] /\
  execute_with_underlying_events e2 = Ok [ev "c"; ev "a"; ev "b"] /\ broken [e1; [(underlying_events_key, VInt 3)]].
Proof.
  split; [vm_compute; reflexivity|]. split; [vm_compute; reflexivity|].
  eapply br_here; [right; left; reflexivity|reflexivity|discriminate].
Qed.
Example C34_case : split_activities_by_level [node_e; node_bc; node_e] = [(0%Z, [node_bc]); (1%Z, [node_e; node_e])].
Proof. vm_compute. reflexivity. Qed.
Example C36_case :
  let up := fun e => match name_of_event e with Ok s => s ++ str "!" | Err _ => [] end in
  create_logs_for_activities (fun e => Ok (up e)) 0 (log_of_traces [ev_trace]) [two_instances] =
    Ok [(str "b::c", [trace_of_events [ev "b!"; ev "c!"]])] /\
  create_logs_for_activities_with_promote (log_of_traces [ev_trace]) [two_instances] 1 [name_of_event; fun e => Ok (firstn 1 (up e))] true =
    Ok [(str "b::c", [trace_of_events [ev "b"; ev "c"]]); (str "e", [trace_of_events [ev "e"]])].
Proof. split; vm_compute; reflexivity. Qed.
