(** C51: the types of the keys of the backend, and exactly which keys each part needs. *)
From Verif Require Import Py WireModel ConstModel ClientModel BackendModel NeedSpec NeedProofs.

(** The keys of the backend are those of the table, with those types. *)
Theorem C51_key_types :
  forall k t, In (k, t) backend_keys <-> exists ks, In (t, ks) key_groups /\ In k ks.
Proof. exact key_types_proof. Qed.
Print Assumptions C51_key_types.

(** A part of the table is content with a configuration of the right types exactly when all its keys are
    there; any key missing is an error of the pipeline, not a panic. *)
Theorem C51_needs :
  forall names keys, In (names, keys) needs -> forall name, In name names -> forall c, well_typed c ->
  (part_config name c = Ok tt <-> forall k, In k keys -> given c k) /\
  ((exists k, In k keys /\ ~ given c k) -> part_config name c = Err KeyError).
Proof. exact needs_proof. Qed.
Print Assumptions C51_needs.

(** The other parts, but for the five below, need nothing. *)
Theorem C51_needless :
  forall name c, ~ In name (flat_map fst needs ++ tandem_parts ++ [several_part; until_part; each_part]) ->
  part_config name c = Ok tt.
Proof. exact needless_proof. Qed.
Print Assumptions C51_needless.

(** Without the length of tandem arrays their search panics. *)
Theorem C51_tandem_needs :
  forall name c, In name tandem_parts -> well_typed c ->
  (given c (str "tandem_array_length") -> part_config name c = Ok tt) /\
  (~ given c (str "tandem_array_length") -> part_config name c = Err AssertionErr).
Proof. exact tandem_needs_proof. Qed.
Print Assumptions C51_tandem_needs.

(** Discovering until no more: with all other keys, tandem arrays need their length or panic, other patterns
    need the strategy or fail. *)
Theorem C51_until_needs :
  forall c, well_typed c ->
  (forall k, In k [str "activity_in_trace_filter_kind"; str "activity_level"; str "execute_only_on_last_extraction";
                   str "min_activity_length"; str "narrow_activities"; str "patterns_kind";
                   str "undef_activity_handling_strategy"] -> given c k) ->
  (tandem_asked c -> (given c (str "tandem_array_length") -> part_config until_part c = Ok tt) /\
    (~ given c (str "tandem_array_length") -> part_config until_part c = Err AssertionErr)) /\
  (~ tandem_asked c -> (given c (str "patterns_discovery_strategy") -> part_config until_part c = Ok tt) /\
    (~ given c (str "patterns_discovery_strategy") -> part_config until_part c = Err KeyError)).
Proof. exact until_proof. Qed.
Print Assumptions C51_until_needs.

(** Several levels: with all keys, it works exactly when there is no level or no tandem arrays are asked for;
    giving their length does not help. *)
Theorem C51_several_needs :
  forall c classes, well_typed c ->
  (forall k, In k [str "activity_in_trace_filter_kind"; str "activity_level"; str "adjusting_mode";
                   str "event_classes_regexes"; str "events_count"; str "min_activity_length"; str "narrow_activities";
                   str "patterns_discovery_strategy"; str "patterns_kind"] -> given c k) ->
  dget str_eq_dec c (str "event_classes_regexes") = Some (VStrings classes) ->
  (part_config several_part c = Ok tt <-> classes = [] \/ ~ tandem_asked c) /\
  (tandem_asked c -> classes <> [] -> part_config several_part c = Err AssertionErr).
Proof. exact several_proof. Qed.
Print Assumptions C51_several_needs.

(** The pipeline with each activity log: the level is needed only when the logs come from the traces. *)
Theorem C51_each_needs :
  forall c v, well_typed c -> given c (str "pipeline") ->
  dget str_eq_dec c (str "activities_logs_source") = Some (VEnum (str "ActivitiesLogsSourceDto") v) ->
  (part_config each_part c = Ok tt <-> v = str "Log" \/ given c (str "activity_level")) /\
  (part_config each_part c = Ok tt \/ part_config each_part c = Err KeyError).
Proof. exact each_proof. Qed.
Print Assumptions C51_each_needs.

(** A configuration meeting the hypotheses. *)
Definition need_config : list (pystr * rvalue) :=
  [(str "activity_level", VU32 0); (str "patterns_kind", VEnum (str "PatternsKindDto") (str "MaximalTandemArrays"));
   (str "event_classes_regexes", VStrings [str "a"]); (str "adjusting_mode", VEnum (str "AdjustingMode") (str "FromAllLog"));
   (str "patterns_discovery_strategy", VEnum (str "PatternsDiscoveryStrategy") (str "FromAllTraces"));
   (str "narrow_activities", VEnum (str "ActivityNarrowingKind") (str "NarrowUp")); (str "events_count", VU32 3);
   (str "min_activity_length", VU32 2); (str "activity_in_trace_filter_kind", VEnum (str "ActivityInTraceFilterKind") (str "NoFilter"));
   (str "tandem_array_length", VU32 20); (str "pipeline", VPipeline []);
   (str "execute_only_on_last_extraction", VBool true);
   (str "undef_activity_handling_strategy", VEnum (str "UndefActivityHandlingStrategyDto") (str "DontInsert"));
   (str "activities_logs_source", VEnum (str "ActivitiesLogsSourceDto") (str "Log"))].
Example C51_needs_case :
  well_typed need_config /\ tandem_asked need_config /\
  part_config until_part need_config = Ok tt /\ part_config several_part need_config = Err AssertionErr /\
  part_config each_part need_config = Ok tt /\
  part_config (str "FilterEventsByRegex") need_config = Err KeyError /\
  part_config (str "FilterTracesByEventsCount") need_config = Ok tt.
Proof.
  split.
  - assert (H : forallb (fun kv => existsb (fun g => (if rtype_eq_dec (fst g) (value_type (snd kv)) then true else false) &&
        existsb (str_eqb (fst kv)) (snd g)) key_groups) need_config = true) by (vm_compute; reflexivity).
    intros k v Hi. rewrite forallb_forall in H. specialize (H _ Hi). apply existsb_exists in H. destruct H as [[t ks] [Hg H]].
    cbn [fst snd] in H. apply andb_prop in H. destruct H as [H1 H2]. destruct (rtype_eq_dec t (value_type v)) as [<-|]; [|discriminate].
    exists ks. split; [exact Hg|]. apply existsb_exists in H2. destruct H2 as [x [Hx H2]]. unfold str_eqb in H2.
    destruct (str_eq_dec k x) as [<-|]; [exact Hx|discriminate].
  - split; [exists (str "MaximalTandemArrays"); split; [vm_compute; reflexivity|right; reflexivity]|].
    vm_compute. repeat split; reflexivity.
Qed.
