(** Properties C01, C02, C03, C45: removing, filtering and editing events. *)
From Coq Require Import Permutation.
From Verif Require Import Py LogModel MutModel MutSpec MutProofs.

(** A small log used to show that hypotheses are met: <a,b,a>, <a>, <b>. *)
Definition ev (n : pystr) : event := [(concept_name, VStr n); (str "cost", VInt 3)].
Definition demo_log : eventlog :=
  log_of_traces [mkTrace [ev (str "a"); ev (str "b"); ev (str "a")] [(str "id", VInt 1)];
                 mkTrace [ev (str "a")] []; mkTrace [ev (str "b")] []].

Example demo_log_named : forall e, in_log e demo_log -> has_name e.
Proof.
  intros e [t [Ht He]].
  repeat (destruct Ht as [<-|Ht]; [repeat (destruct He as [<-|He]; [eexists; reflexivity|]); contradiction|]).
  contradiction.
Qed.

(** C01: the result is the input with exactly the events named n deleted, emptied traces
    dropped, and no log/trace metadata. *)
Theorem C01_remove_event_exact : forall log n,
  (forall e, in_log e log -> has_name e) ->
  exists log', remove_event_from_log log n = Ok log' /\
    TracesDeleted (fun e => named e n) (l_traces log) (l_traces log') /\ no_metadata log'.
Proof. exact remove_event_exact_proof. Qed.
Print Assumptions C01_remove_event_exact.

Example C01_case : exists log', remove_event_from_log demo_log (str "a") = Ok log' /\
  map t_events (l_traces log') = [[ev (str "b")]; [ev (str "b")]].
Proof. eexists; split; vm_compute; reflexivity. Qed.

(** C01, without the relation: whenever the call returns, the removed name is gone, all
    other events are still there, and no trace is empty. *)
Theorem C01_remove_event_members : forall log log' n,
  remove_event_from_log log n = Ok log' ->
  (forall e, in_log e log' -> ~ named e n /\ in_log e log) /\
  (forall e, in_log e log -> ~ named e n -> in_log e log') /\
  (forall t, In t (l_traces log') -> t_events t <> []).
Proof. exact remove_event_gone_proof. Qed.
Print Assumptions C01_remove_event_members.

(** C01, multiplicities: any class of events not containing events named n has the same
    number of members before and after. *)
Theorem C01_remove_event_counts : forall log log' n f,
  remove_event_from_log log n = Ok log' ->
  (forall e, in_log e log -> has_name e) ->
  (forall e, named e n -> f e = false) ->
  count_log f log' = count_log f log.
Proof. exact remove_event_counts_proof. Qed.
Print Assumptions C01_remove_event_counts.

(** C01, error branch: an event without concept:name makes the call raise KeyError. *)
Theorem C01_remove_event_keyerror : forall log n,
  (exists e, in_log e log /\ ~ has_name e) -> remove_event_from_log log n = Err KeyError.
Proof. exact remove_event_error_proof. Qed.
Print Assumptions C01_remove_event_keyerror.

Example C01_keyerror_case :
  remove_event_from_log (log_of_traces [trace_of_events [ev (str "a"); [(str "x", VInt 1)]]]) (str "a")
  = Err KeyError.
Proof. reflexivity. Qed.

(** C02: removing a set of names = removing them one after another. *)
Theorem C02_remove_events_is_iterated_removal : forall log n names,
  (forall e, in_log e log -> has_name e) ->
  foldM remove_event_from_log (n :: names) log = remove_events_from_log log (n :: names).
Proof. exact remove_events_fold_proof. Qed.
Print Assumptions C02_remove_events_is_iterated_removal.

(** C02: only the set of names matters (order and repetition do not). *)
Theorem C02_remove_events_set : forall log names names',
  (forall n, In n names <-> In n names') ->
  remove_events_from_log log names = remove_events_from_log log names'.
Proof. exact remove_events_perm_proof. Qed.
Print Assumptions C02_remove_events_set.

Theorem C02_remove_event_idempotent : forall log log' n,
  remove_event_from_log log n = Ok log' -> remove_event_from_log log' n = Ok log'.
Proof. exact remove_event_idem_proof. Qed.
Print Assumptions C02_remove_event_idempotent.

(** C02: two removals commute (including when they raise). *)
Theorem C02_remove_event_commute : forall log n m,
  bind (remove_event_from_log log n) (fun l => remove_event_from_log l m)
  = bind (remove_event_from_log log m) (fun l => remove_event_from_log l n).
Proof. exact remove_event_comm_proof. Qed.
Print Assumptions C02_remove_event_commute.

(** C02: filter_log deletes exactly the events satisfying the predicate. *)
Theorem C02_filter_log_exact : forall log p g,
  (forall e, in_log e log -> p e = Ok (g e)) ->
  exists log', filter_log log p = Ok log' /\
    TracesDeleted (fun e => g e = true) (l_traces log) (l_traces log') /\ no_metadata log'.
Proof. exact filter_log_exact_proof. Qed.
Print Assumptions C02_filter_log_exact.

(** C02: filtering by p then by q = filtering by "p or q". *)
Theorem C02_filter_log_twice : forall log p q g h,
  (forall e, in_log e log -> p e = Ok (g e)) ->
  (forall e, in_log e log -> q e = Ok (h e)) ->
  bind (filter_log log p) (fun l => filter_log l q)
  = filter_log log (fun e => bind (p e) (fun b => bind (q e) (fun c => Ok (b || c)))).
Proof. exact filter_log_twice_proof. Qed.
Print Assumptions C02_filter_log_twice.

Example C02_case :
  remove_events_from_log demo_log [str "a"; str "zzz"; str "b"] = Ok empty_log /\
  filter_log demo_log (fun e => Ok (ehas e (str "cost"))) = Ok empty_log /\
  filter_log demo_log (fun e => Ok (ehas e (str "nope")))
    = Ok (log_of_traces (map (fun t => trace_of_events (t_events t)) (l_traces demo_log))).
Proof. repeat split; vm_compute; reflexivity. Qed.

(** C03: exactly the traces with more than [m] events survive, unchanged and in order. *)
Theorem C03_remove_empty_traces_exact : forall log m,
  Deleted (fun t => (Z.of_nat (length (t_events t)) <= m)%Z)
          (l_traces log) (l_traces (remove_empty_traces log m))
  /\ no_metadata (remove_empty_traces log m).
Proof. exact remove_empty_traces_proof. Qed.
Print Assumptions C03_remove_empty_traces_exact.

Example C03_case :
  l_traces (remove_empty_traces demo_log 1) = [mkTrace [ev (str "a"); ev (str "b"); ev (str "a")] [(str "id", VInt 1)]]
  /\ length (l_traces (remove_empty_traces demo_log 0)) = 3.
Proof. split; vm_compute; reflexivity. Qed.

(** C03: renaming touches only the name of each event. *)
Theorem C03_preprocess_names : forall log f,
  (forall e, in_log e log -> has_name e) ->
  exists log', preprocess_event_names_inplace log (fun v => Ok (f v)) = Ok log' /\
    SameShape (fun e e' =>
       (forall v, eget e concept_name = Some v -> eget e' concept_name = Some (f v)) /\
       (forall k, k <> concept_name -> eget e' k = eget e k) /\
       map fst e' = map fst e) log log'.
Proof. exact preprocess_names_proof. Qed.
Print Assumptions C03_preprocess_names.

(** C03: applying a class extractor renames exactly the selected events. *)
Theorem C03_apply_class_extractor : forall log sel cls,
  exists log', apply_class_extractor log (fun e => Ok (sel e)) (fun e => Ok (cls e)) = Ok log' /\
    SameShape (fun e e' =>
       (sel e = true -> named e' (cls e) /\ forall k, k <> concept_name -> eget e' k = eget e k) /\
       (sel e = false -> e' = e)) log log'.
Proof. exact apply_class_extractor_proof. Qed.
Print Assumptions C03_apply_class_extractor.

(** C45: exactly one start event first, one end event last, nothing else changes. *)
Theorem C45_artificial_start_end : forall log,
  let log' := add_artificial_start_end log in
  Forall2 (fun t t' => t_attrs t' = t_attrs t /\
             t_events t' = [[(concept_name, VStr (str "ARTIFICIAL_START"))]] ++ t_events t
                           ++ [[(concept_name, VStr (str "ARTIFICIAL_END"))]])
          (l_traces log) (l_traces log') /\
  l_attrs log' = l_attrs log /\ l_extensions log' = l_extensions log /\
  l_classifiers log' = l_classifiers log /\ l_properties log' = l_properties log /\
  l_globals log' = l_globals log.
Proof. exact artificial_proof. Qed.
Print Assumptions C45_artificial_start_end.

(** C45: lifecycle removal takes that key out of every event and changes nothing else. *)
Theorem C45_remove_lifecycle : forall log,
  (forall e, in_log e log -> NoDup (map fst e)) ->
  exists log', remove_lifecycle_attribute log = Ok log' /\
    SameShape (fun e e' =>
       eget e' lifecycle_transition = None /\
       (forall k, k <> lifecycle_transition -> eget e' k = eget e k)) log log'.
Proof. exact remove_lifecycle_proof. Qed.
Print Assumptions C45_remove_lifecycle.

Example C45_case :
  map (fun t => length (t_events t)) (l_traces (add_artificial_start_end demo_log)) = [5; 3; 3] /\
  remove_lifecycle_attribute
    (log_of_traces [trace_of_events [[(concept_name, VStr (str "a")); (lifecycle_transition, VStr (str "complete"))];
                                     [(concept_name, VStr (str "b"))]]])
  = Ok (log_of_traces [trace_of_events [[(concept_name, VStr (str "a"))]; [(concept_name, VStr (str "b"))]]]).
Proof. split; vm_compute; reflexivity. Qed.
