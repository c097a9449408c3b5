(** Property C18: the two position entropy implementations agree. *)
From Verif Require Import Py InfoModel InfoSpec PosModel PosSpec PosProofs.

(** Hypothesis on [ig]: the counts handed over with the ignored set are those of this log, and the set
    has no repeated element (it is a Python set). Both variants then never fail (no index error) and hand the same
    count vector, namely per position the number of traces having the event there after dropping
    the ignored events, and the same number of non-empty traces to the same final formula. *)
Theorem C18_fast_equals_slow : forall (F : Type) (finish : list nat -> nat -> F) log e ig cached,
  log <> [] ->
  match ig with
  | None => True
  | Some i => NoDup (ig_events i) /\ ig_counts i = calculate_events_in_each_trace log /\ ~ In e (ig_events i)
  end ->
  (cached = None \/ cached = Some (create_events_positions log)) ->
  let ign := option_map ig_events ig in
  position_entropy_fast finish log e ig cached =
    Ok (finish (position_counts log ign e) (non_empty_traces log ign)) /\
  position_entropy finish log e ig =
    Ok (finish (position_counts log ign e) (non_empty_traces log ign)).
Proof. exact @position_fast_slow_full. Qed.
Print Assumptions C18_fast_equals_slow.

(** On an ignored event itself the variants differ, so the condition is needed. *)
Theorem C18_ignored_event_refuted : exists log e ig,
  log <> [] /\ NoDup (ig_events ig) /\ ig_counts ig = calculate_events_in_each_trace log /\
  position_entropy_fast (fun v n => (v, n)) log e (Some ig) None <>
  position_entropy (fun v n => (v, n)) log e (Some ig).
Proof.
  exists [[str "A"; str "B"]], (str "A"), (mkIgn [str "A"] (calculate_events_in_each_trace [[str "A"; str "B"]])).
  split; [discriminate|split; [repeat constructor; intros []|split; [reflexivity|]]]. vm_compute. discriminate.
Qed.
Print Assumptions C18_ignored_event_refuted.

(** The per-event dictionaries agree as well, for every log (also the empty one). *)
Theorem C18_dicts_agree : forall (F : Type) (finish : list nat -> nat -> F) log ig cached,
  match ig with
  | None => True
  | Some i => NoDup (ig_events i) /\ ig_counts i = calculate_events_in_each_trace log
  end ->
  (cached = None \/ cached = Some (create_events_positions log)) ->
  exists d, position_entropies_fast finish log ig cached = Ok d /\ position_entropies finish log ig = Ok d /\
    dkeys d = dkeys (li_events_count (create_log_information log (option_map ig_events ig) true)) /\
    forall n x, In (n, x) d ->
      x = finish (position_counts log (option_map ig_events ig) n) (non_empty_traces log (option_map ig_events ig)).
Proof. exact @position_dicts_full. Qed.
Print Assumptions C18_dicts_agree.

Example C18_case :
  let log := [[str "A"; str "X"; str "B"]; [str "X"]; [str "X"; str "B"; str "B"]; []] in
  let ig := Some (mkIgn [str "X"] (calculate_events_in_each_trace log)) in
  position_entropy_fast (fun v n => (v, n)) log (str "B") ig None = Ok ([1; 2], 2) /\
  position_entropy (fun v n => (v, n)) log (str "B") ig = Ok ([1; 2], 2).
Proof. vm_compute. auto. Qed.
