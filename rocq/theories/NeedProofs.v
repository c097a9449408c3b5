(** Proofs about the tables of keys and needs. *)
From Verif Require Import Py PyFacts WireModel ConstModel ClientModel ClientSpec BackendModel BackendSpec BackendProofs BackendConfig NeedSpec.

Definition flat_groups : list (pystr * rtype) := flat_map (fun g => map (fun k => (k, fst g)) (snd g)) key_groups.
Lemma flat_groups_In k t : In (k, t) flat_groups <-> exists ks, In (t, ks) key_groups /\ In k ks.
Proof.
  unfold flat_groups. rewrite in_flat_map. split.
  - intros [[t' ks] [Hi H]]. apply in_map_iff in H. destruct H as [k' [E H]]. cbn [fst snd] in *. injection E as <- <-. exists ks. split; assumption.
  - intros [ks [Hi H]]. exists (t, ks). split; [exact Hi|]. apply in_map_iff. exists k. split; [reflexivity|exact H].
Qed.
Definition kt_eq_dec (x y : pystr * rtype) : {x = y} + {x <> y}.
Proof. destruct x as [k t], y as [k' t']. destruct (str_eq_dec k k'); [|right; congruence]. destruct (rtype_eq_dec t t'); [left|right]; congruence. Defined.
Definition included (l m : list (pystr * rtype)) : bool := forallb (fun x => if in_dec kt_eq_dec x m then true else false) l.
Lemma included_In l m x : included l m = true -> In x l -> In x m.
Proof. intros H Hi. unfold included in H. rewrite forallb_forall in H. specialize (H x Hi). destruct (in_dec kt_eq_dec x m); [assumption|discriminate]. Qed.
Lemma keys_same x : In x backend_keys <-> In x flat_groups.
Proof. split; apply included_In; vm_compute; reflexivity. Qed.
Lemma key_types_proof k t : In (k, t) backend_keys <-> exists ks, In (t, ks) key_groups /\ In k ks.
Proof. rewrite keys_same. apply flat_groups_In. Qed.

Lemma keys_nodup : NoDup (map fst backend_keys).
Proof.
  assert (H : forall l : list pystr, (fix go (l : list pystr) := match l with [] => true | x :: r => negb (if in_dec str_eq_dec x r then true else false) && go r end) l = true -> NoDup l).
  { induction l as [|x r IH]; intros H; constructor.
    - destruct (in_dec str_eq_dec x r); [discriminate|assumption].
    - apply IH. destruct (in_dec str_eq_dec x r); [discriminate|exact H]. }
  apply H. vm_compute. reflexivity.
Qed.
Lemma key_found k t : In (k, t) backend_keys -> find_key k = Some t.
Proof.
  unfold find_key. pose proof keys_nodup as H. revert H. generalize backend_keys. intros l. induction l as [|[k' t'] r IH]; cbn [map fst]; intros Hn; [intros []|].
  inversion Hn as [|? ? Hx Hr]; subst. intros [E|Hi].
  - injection E as <- <-. cbn [dget]. destruct (str_eq_dec k' k'); [reflexivity|congruence].
  - cbn [dget]. destruct (str_eq_dec k k'); [|apply IH; assumption].
    subst. exfalso. apply Hx. apply (in_map fst) in Hi. exact Hi.
Qed.

Definition known_key (k : pystr) : Prop := exists t, In (k, t) backend_keys.
Lemma get_given c k : well_typed c -> given c k -> exists v, get_config c k = Ok v /\ dget str_eq_dec c k = Some v.
Proof.
  intros Ht Hg. destruct (dget str_eq_dec c k) as [v|] eqn:E.
  - exists v. split; [|reflexivity]. unfold get_config. rewrite (key_found k (value_type v)).
    + rewrite E. destruct (rtype_eq_dec (value_type v) (value_type v)); [reflexivity|congruence].
    + apply key_types_proof, (Ht k v). apply (dget_In str_eq_dec). exact E.
  - exfalso. apply dget_None in E. apply E. exact Hg.
Qed.
Lemma get_missing c k : known_key k -> ~ given c k -> get_config c k = Err KeyError.
Proof.
  intros [t Hk] Hg. unfold get_config. rewrite (key_found k t Hk). destruct (dget str_eq_dec c k) as [v|] eqn:E; [|reflexivity].
  exfalso. apply Hg. apply dget_In in E. apply (in_map fst) in E. exact E.
Qed.
Lemma given_dec c k : {given c k} + {~ given c k}.
Proof. apply in_dec, str_eq_dec. Qed.
Lemma get_all_cons c k keys : get_all c (k :: keys) = bind (get_config c k) (fun _ => get_all c keys).
Proof. unfold get_all. cbn [mapM]. destruct (get_config c k); cbn [bind]; [|reflexivity]. destruct (mapM (get_config c) keys); reflexivity. Qed.
Lemma all_given c keys : well_typed c -> Forall known_key keys ->
  (Forall (given c) keys /\ get_all c keys = Ok tt) \/ ((exists k, In k keys /\ ~ given c k) /\ get_all c keys = Err KeyError).
Proof.
  intros Ht. induction keys as [|k r IH]; intros Hk.
  - left. split; [constructor|reflexivity].
  - inversion Hk as [|? ? Hk1 Hk2]; subst. rewrite get_all_cons. destruct (given_dec c k) as [Hg|Hg].
    + destruct (get_given c k Ht Hg) as [v [E _]]. rewrite E. cbn [bind]. destruct (IH Hk2) as [[A B]|[[k' [A1 A2]] B]].
      * left. split; [constructor; assumption|exact B].
      * right. split; [exists k'; split; [right; exact A1|exact A2]|exact B].
    + right. rewrite (get_missing c k Hk1 Hg). split; [exists k; split; [left; reflexivity|exact Hg]|reflexivity].
Qed.

Definition known_b (k : pystr) : bool := match find_key k with Some _ => true | None => false end.
Lemma known_b_ok k : known_b k = true -> known_key k.
Proof. unfold known_b, find_key, known_key. destruct (dget str_eq_dec backend_keys k) as [t|] eqn:E; [|discriminate]. intros _. exists t. apply (dget_In str_eq_dec), E. Qed.
Lemma known_all keys : forallb known_b keys = true -> Forall known_key keys.
Proof. intros H. apply Forall_forall. intros k Hi. apply known_b_ok. rewrite forallb_forall in H. apply H, Hi. Qed.

(** A part that reads the keys [l], in whatever order the table has them. *)
Lemma needs_by (l keys : list pystr) c r : r = get_all c l -> forallb known_b l = true ->
  forallb (fun k => if in_dec str_eq_dec k l then true else false) keys = true ->
  forallb (fun k => if in_dec str_eq_dec k keys then true else false) l = true ->
  well_typed c ->
  (r = Ok tt <-> forall k, In k keys -> given c k) /\ ((exists k, In k keys /\ ~ given c k) -> r = Err KeyError).
Proof.
  intros -> Hk H1 H2 Ht. rewrite forallb_forall in H1, H2.
  assert (S1 : forall k, In k keys -> In k l). { intros k Hi. specialize (H1 k Hi). destruct (in_dec str_eq_dec k l); [assumption|discriminate]. }
  assert (S2 : forall k, In k l -> In k keys). { intros k Hi. specialize (H2 k Hi). destruct (in_dec str_eq_dec k keys); [assumption|discriminate]. }
  destruct (all_given c l Ht (known_all l Hk)) as [[A B]|[[k [A1 A2]] B]]; rewrite B.
  - rewrite Forall_forall in A. split.
    + split; [intros _ k Hi; apply A, S1, Hi|reflexivity].
    + intros [k [Hi Hn]]. exfalso. apply Hn, A, S1, Hi.
  - split; [|reflexivity]. split; [discriminate|]. intros H. exfalso. apply A2, H, S2, A1.
Qed.


Definition part_keys (name : pystr) : list pystr :=
  let is s := str_eqb name s in
  if is (str "DiscoverActivities") then [str "activity_level"]
  else if is (str "DiscoverActivitiesInstances") then [str "narrow_activities"; str "min_activity_length"; str "activity_in_trace_filter_kind"]
  else if is (str "CreateLogFromActivities") then [str "undef_activity_handling_strategy"]
  else if is (str "DiscoverActivitiesInUnattachedSubTraces") then
    [str "narrow_activities"; str "events_count"; str "min_activity_length"; str "activity_in_trace_filter_kind"]
  else if is (str "ApplyClassExtractor") then [str "event_class_regex"; str "regex"]
  else if is (str "ClusterizeActivitiesFromTracesKMeans") then
    [str "activity_level"; str "activities_repr_source"; str "tolerance"; str "distance"; str "clusters_count"; str "learning_iterations_count"]
  else if is (str "ClusterizeActivitiesFromTracesKMeansGridSearch") then
    [str "learning_iterations_count"; str "activity_level"; str "activities_repr_source"; str "tolerance"; str "distance"]
  else if is (str "ClusterizeActivitiesFromTracesDbscan") then
    [str "min_events_in_cluster_count"; str "activity_level"; str "activities_repr_source"; str "tolerance"; str "distance"]
  else if is (str "CreateTracesActivitiesDataset") then [str "activity_level"; str "activities_repr_source"]
  else if is (str "ClusterizeLogTraces") then
    [str "tolerance"; str "distance"; str "traces_repr_source"; str "pipeline"; str "min_events_in_cluster_count"]
  else if is (str "FindMaximalRepeats") || is (str "FindSuperMaximalRepeats") || is (str "FindNearSuperMaximalRepeats") then
    [str "patterns_discovery_strategy"]
  else if is (str "DiscoverPetriNetHeuristic") then
    [str "dependency_threshold"; str "positive_observations_threshold"; str "relative_to_best_threshold"; str "and_threshold"; str "loop_length_two_threshold"]
  else if is (str "DiscoverFuzzyGraph") then
    [str "unary_frequency_threshold"; str "binary_frequency_significance_threshold"; str "preserve_threshold"; str "ratio_threshold"; str "utility_rate";
     str "edge_cutoff_threshold"; str "node_cutoff_threshold"]
  else if is (str "SerializePetriNet") then [str "path"; str "pnml_use_names_as_ids"]
  else if is (str "AnnotatePetriNetWithCount") || is (str "AnnotatePetriNetWithFrequency") || is (str "AnnotatePetriNetWithTraceFrequency") then
    [str "terminate_on_unreplayable_traces"]
  else if is (str "DrawPlacementOfEventByName") then [str "event_name"]
  else if is (str "DrawPlacementOfEventsByRegex") then [str "regex"]
  else if is (str "FilterEventsByName") then [str "event_name"]
  else if is (str "FilterEventsByRegex") then [str "regex"]
  else if is (str "FilterTracesByEventsCount") then [str "events_count"]
  else if is (str "WriteLogToXes") || is (str "WriteLogToBxes") then [str "path"]
  else if is (str "ExecuteFrontendPipeline") then [str "pipeline"]
  else [].
Definition special (name : pystr) : bool :=
  str_eqb name several_part || str_eqb name until_part || str_eqb name each_part ||
  str_eqb name (str "FindPrimitiveTandemArrays") || str_eqb name (str "FindMaximalTandemArrays").

Lemma part_reads name c : special name = false -> part_config name c = get_all c (part_keys name).
Proof.
  unfold special, several_part, until_part, each_part. intros H.
  apply orb_false_elim in H. destruct H as [H H5]. apply orb_false_elim in H. destruct H as [H H4].
  apply orb_false_elim in H. destruct H as [H H3]. apply orb_false_elim in H. destruct H as [H1 H2].
  unfold part_config, part_keys. cbn zeta. rewrite H1, H2, H3, H4, H5. cbn [orb].
  repeat match goal with |- (if ?b then _ else _) = get_all c (if ?b then _ else _) => destruct b; [reflexivity|] end.
  reflexivity.
Qed.

Definition covered (e : list pystr * list pystr) : bool :=
  forallb (fun name => negb (special name) && forallb known_b (part_keys name) &&
    forallb (fun k => if in_dec str_eq_dec k (part_keys name) then true else false) (snd e) &&
    forallb (fun k => if in_dec str_eq_dec k (snd e) then true else false) (part_keys name)) (fst e).
Lemma table_covered : forallb covered needs = true.
Proof. vm_compute. reflexivity. Qed.
Lemma needs_proof names keys : In (names, keys) needs -> forall name, In name names -> forall c, well_typed c ->
  (part_config name c = Ok tt <-> forall k, In k keys -> given c k) /\
  ((exists k, In k keys /\ ~ given c k) -> part_config name c = Err KeyError).
Proof.
  intros Hi name Hn c Ht. pose proof table_covered as H. rewrite forallb_forall in H. specialize (H _ Hi).
  unfold covered in H. cbn [fst snd] in H. rewrite forallb_forall in H. specialize (H _ Hn).
  apply andb_prop in H. destruct H as [H H4]. apply andb_prop in H. destruct H as [H H3]. apply andb_prop in H. destruct H as [H1 H2].
  apply (needs_by (part_keys name)); try assumption. apply part_reads. destruct (special name); [discriminate|reflexivity].
Qed.

Definition listed : list pystr := flat_map fst needs ++ tandem_parts ++ [several_part; until_part; each_part].
Lemma unlisted name : ~ In name listed -> special name = false /\ part_keys name = [].
Proof.
  intros H. assert (E : forall s, In s listed -> str_eqb name s = false).
  { intros s Hs. unfold str_eqb. destruct (str_eq_dec name s); [subst; contradiction|reflexivity]. }
  assert (L : forall s, (if in_dec str_eq_dec s listed then true else false) = true -> str_eqb name s = false).
  { intros s Hs. apply E. destruct (in_dec str_eq_dec s listed); [assumption|discriminate]. }
  split; unfold special, part_keys, several_part, until_part, each_part; cbn zeta;
    repeat (rewrite L by (vm_compute; reflexivity)); reflexivity.
Qed.
Lemma needless_proof name c : ~ In name listed -> part_config name c = Ok tt.
Proof. intros H. destruct (unlisted name H) as [A B]. rewrite part_reads by exact A. rewrite B. reflexivity. Qed.

Lemma tandem_needs_proof name c : In name tandem_parts -> well_typed c ->
  (given c (str "tandem_array_length") -> part_config name c = Ok tt) /\
  (~ given c (str "tandem_array_length") -> part_config name c = Err AssertionErr).
Proof.
  intros Hn Ht. assert (E : part_config name c = bind (get_unwrap c (str "tandem_array_length")) (fun _ => Ok tt)).
  { destruct Hn as [<-|[<-|[]]]; reflexivity. }
  rewrite E. unfold get_unwrap. split; intros Hg.
  - destruct (get_given c _ Ht Hg) as [v [-> _]]. reflexivity.
  - rewrite get_missing; [reflexivity| |exact Hg]. apply known_b_ok. vm_compute. reflexivity.
Qed.

(* ---- find_patterns ---- *)
Lemma kind_value c : well_typed c -> given c (str "patterns_kind") ->
  exists v, get_config c (str "patterns_kind") = Ok (VEnum (str "PatternsKindDto") v) /\
    dget str_eq_dec c (str "patterns_kind") = Some (VEnum (str "PatternsKindDto") v).
Proof.
  intros Ht Hg. destruct (get_given c _ Ht Hg) as [v [E1 E2]].
  assert (Hi : In (str "patterns_kind", value_type v) backend_keys).
  { apply key_types_proof, (Ht _ v). apply (dget_In str_eq_dec), E2. }
  apply key_found in Hi. assert (F : find_key (str "patterns_kind") = Some (TyEnum (str "PatternsKindDto"))) by (vm_compute; reflexivity).
  rewrite F in Hi. injection Hi as Hi. destruct v; try discriminate Hi. unfold value_type in Hi. injection Hi as <-. exists v. split; assumption.
Qed.
Lemma find_patterns_proof c : well_typed c -> given c (str "patterns_kind") -> given c (str "activity_level") ->
  (tandem_asked c -> (given c (str "tandem_array_length") -> find_patterns_config c = Ok tt) /\
    (~ given c (str "tandem_array_length") -> find_patterns_config c = Err AssertionErr)) /\
  (~ tandem_asked c -> (given c (str "patterns_discovery_strategy") -> find_patterns_config c = Ok tt) /\
    (~ given c (str "patterns_discovery_strategy") -> find_patterns_config c = Err KeyError)).
Proof.
  intros Ht Hk Hl. destruct (kind_value c Ht Hk) as [v [E1 E2]]. destruct (get_given c _ Ht Hl) as [lv [L _]].
  unfold find_patterns_config. rewrite E1. cbn [bind].
  destruct (str_eqb v (str "PrimitiveTandemArrays") || str_eqb v (str "MaximalTandemArrays")) eqn:B.
  - assert (T : tandem_asked c).
    { exists v. split; [exact E2|]. apply orb_prop in B. destruct B as [B|B]; unfold str_eqb in B; [left|right].
      - destruct (str_eq_dec v (str "PrimitiveTandemArrays")); [assumption|discriminate].
      - destruct (str_eq_dec v (str "MaximalTandemArrays")); [assumption|discriminate]. }
    split; [intros _|intros N; contradiction]. unfold get_unwrap. split; intros Hg.
    + destruct (get_given c _ Ht Hg) as [w [-> _]]. cbn [bind]. rewrite L. reflexivity.
    + rewrite get_missing; [reflexivity| |exact Hg]. apply known_b_ok. vm_compute. reflexivity.
  - assert (T : ~ tandem_asked c).
    { intros [w [Hw T]]. rewrite E2 in Hw. injection Hw as <-. destruct T as [-> | ->]; unfold str_eqb in B.
      - destruct (str_eq_dec (str "PrimitiveTandemArrays") (str "PrimitiveTandemArrays")); [discriminate B|congruence].
      - destruct (str_eq_dec (str "MaximalTandemArrays") (str "MaximalTandemArrays")); [|congruence]. rewrite orb_true_r in B. discriminate B. }
    split; [intros N; contradiction|intros _]. split; intros Hg.
    + destruct (get_given c _ Ht Hg) as [w [-> _]]. cbn [bind]. rewrite L. reflexivity.
    + rewrite get_missing; [reflexivity| |exact Hg]. apply known_b_ok. vm_compute. reflexivity.
Qed.

Definition until_keys : list pystr :=
  [str "activity_in_trace_filter_kind"; str "activity_level"; str "execute_only_on_last_extraction"; str "min_activity_length";
   str "narrow_activities"; str "patterns_kind"; str "undef_activity_handling_strategy"].
Lemma until_proof c : well_typed c -> (forall k, In k until_keys -> given c k) ->
  (tandem_asked c -> (given c (str "tandem_array_length") -> part_config until_part c = Ok tt) /\
    (~ given c (str "tandem_array_length") -> part_config until_part c = Err AssertionErr)) /\
  (~ tandem_asked c -> (given c (str "patterns_discovery_strategy") -> part_config until_part c = Ok tt) /\
    (~ given c (str "patterns_discovery_strategy") -> part_config until_part c = Err KeyError)).
Proof.
  intros Ht Hg.
  assert (E : part_config until_part c =
    bind (get_all c [str "activity_level"; str "execute_only_on_last_extraction"]) (fun _ =>
    bind (find_patterns_config c) (fun _ =>
    get_all c [str "narrow_activities"; str "min_activity_length"; str "activity_in_trace_filter_kind";
                    str "undef_activity_handling_strategy"]))) by reflexivity.
  assert (G : forall l, forallb (fun k => if in_dec str_eq_dec k until_keys then true else false) l = true -> forallb known_b l = true -> get_all c l = Ok tt).
  { intros l Hl Hk. destruct (all_given c l Ht (known_all l Hk)) as [[_ B]|[[k [A1 A2]] _]]; [exact B|].
    exfalso. apply A2, Hg. rewrite forallb_forall in Hl. specialize (Hl k A1). destruct (in_dec str_eq_dec k until_keys); [assumption|discriminate]. }
  rewrite E. rewrite !G by (vm_compute; reflexivity). cbn [bind].
  assert (F : bind (find_patterns_config c) (fun _ => Ok tt) = find_patterns_config c) by (destruct (find_patterns_config c) as [[]|]; reflexivity).
  rewrite F. apply find_patterns_proof; [exact Ht| |]; apply Hg; unfold until_keys; repeat (first [left; reflexivity|right]).
Qed.

Definition each_keys : list pystr := [str "activities_logs_source"; str "pipeline"].
Lemma each_proof c v : well_typed c -> given c (str "pipeline") ->
  dget str_eq_dec c (str "activities_logs_source") = Some (VEnum (str "ActivitiesLogsSourceDto") v) ->
  (part_config each_part c = Ok tt <-> v = str "Log" \/ given c (str "activity_level")) /\
  (part_config each_part c = Ok tt \/ part_config each_part c = Err KeyError).
Proof.
  intros Ht Hp Hv.
  assert (E : part_config each_part c =
    bind (get_all c [str "pipeline"; str "activities_logs_source"]) (fun _ =>
    match dget str_eq_dec c (str "activities_logs_source") with
    | Some (VEnum _ v) => if str_eqb v (str "Log") then Ok tt else get_all c [str "activity_level"]
    | _ => panic
    end)) by reflexivity.
  assert (Hs : given c (str "activities_logs_source")). { apply dget_In in Hv. apply (in_map fst) in Hv. exact Hv. }
  rewrite E, Hv. clear E.
  destruct (all_given c [str "pipeline"; str "activities_logs_source"] Ht) as [[_ B]|[[k [A1 A2]] _]].
  { apply known_all. vm_compute. reflexivity. }
  2: { exfalso. destruct A1 as [<-|[<-|[]]]; contradiction. }
  rewrite B. cbn [bind]. unfold str_eqb. destruct (str_eq_dec v (str "Log")) as [->|Hn].
  - split; [split; [left|]; reflexivity|left; reflexivity].
  - destruct (all_given c [str "activity_level"] Ht) as [[A C]|[[k [A1 A2]] C]]; [apply known_all; vm_compute; reflexivity| |]; rewrite C.
    + inversion A; subst. split; [split; [right; assumption|reflexivity]|left; reflexivity].
    + destruct A1 as [<-|[]]. split; [split; [discriminate|intros [?|?]; contradiction]|right; reflexivity].
Qed.

(* ---- several levels ---- *)
Definition several_keys : list pystr :=
  [str "activity_in_trace_filter_kind"; str "activity_level"; str "adjusting_mode"; str "event_classes_regexes"; str "events_count";
   str "min_activity_length"; str "narrow_activities"; str "patterns_discovery_strategy"; str "patterns_kind"].
Definition copied : list pystr :=
  [str "patterns_kind"; str "adjusting_mode"; str "patterns_discovery_strategy"; str "narrow_activities"; str "events_count";
   str "min_activity_length"; str "activity_in_trace_filter_kind"].
Definition copy1 (c : userdata) k : list (pystr * rvalue) := match dget str_eq_dec c k with Some v => [(k, v)] | None => [] end.
Lemma level_config_eq c i cls : level_config c i cls =
  copy1 c (str "patterns_kind") ++ [(str "event_class_regex", VString cls)] ++ copy1 c (str "adjusting_mode") ++
  match dget str_eq_dec c (str "activity_level") with
  | Some (VU32 n) => [(str "activity_level", VU32 ((n + i) mod 2 ^ 32))]
  | _ => []
  end ++ copy1 c (str "patterns_discovery_strategy") ++ copy1 c (str "narrow_activities") ++
  copy1 c (str "events_count") ++ copy1 c (str "min_activity_length") ++ copy1 c (str "activity_in_trace_filter_kind").
Proof. reflexivity. Qed.
Lemma copy1_In c k k' v : In (k', v) (copy1 c k) -> k' = k /\ In (k', v) c.
Proof. unfold copy1. destruct (dget str_eq_dec c k) eqn:E; intros H; [destruct H as [H|[]]|destruct H]. injection H as <- <-. split; [reflexivity|]. apply (dget_In str_eq_dec), E. Qed.
Lemma level_In c i cls k v : In (k, v) (level_config c i cls) ->
  In (k, v) c /\ In k copied \/ (k = str "event_class_regex" /\ v = VString cls) \/ (exists n, k = str "activity_level" /\ v = VU32 n).
Proof.
  rewrite level_config_eq. unfold copied. rewrite !in_app_iff. intros H.
  decompose [or] H; clear H;
    match goal with
    | [ H : In _ (copy1 _ _) |- _ ] => left; apply copy1_In in H; destruct H as [-> H]; split; [exact H|]; repeat (first [left; reflexivity|right])
    | [ H : In _ [_] |- _ ] => right; left; destruct H as [H|[]]; injection H as <- <-; split; reflexivity
    | [ H : In _ (match _ with _ => _ end) |- _ ] =>
        right; right; destruct (dget str_eq_dec c (str "activity_level")) as [[]|]; try contradiction H; destruct H as [H|[]]; injection H as <- <-; eexists; split; reflexivity
    end.
Qed.
Lemma level_typed c i cls : well_typed c -> well_typed (level_config c i cls).
Proof.
  intros Ht k v Hi. destruct (level_In c i cls k v Hi) as [[H _]|[[-> ->]|[n [-> ->]]]].
  - apply Ht, H.
  - apply key_types_proof. apply keys_same. apply (included_In [(str "event_class_regex", TyString)]); [vm_compute; reflexivity|left; reflexivity].
  - apply key_types_proof. apply keys_same. apply (included_In [(str "activity_level", TyU32)]); [vm_compute; reflexivity|left; reflexivity].
Qed.
Lemma copy1_given c k : given c k -> given (copy1 c k) k.
Proof. intros H. unfold copy1. destruct (dget str_eq_dec c k) eqn:E; [left; reflexivity|]. apply dget_None in E. contradiction. Qed.
Lemma given_app c d k : given (c ++ d) k <-> given c k \/ given d k.
Proof. unfold given. rewrite map_app. apply in_app_iff. Qed.
Lemma level_given c i cls k : In k copied -> given c k -> given (level_config c i cls) k.
Proof.
  intros Hk Hg. apply copy1_given in Hg. rewrite level_config_eq. rewrite !given_app. unfold copied in Hk. cbn [In] in Hk.
  decompose [or] Hk; clear Hk; subst; tauto.
Qed.
Lemma level_level c i cls : well_typed c -> given c (str "activity_level") -> given (level_config c i cls) (str "activity_level").
Proof.
  intros Ht Hg. rewrite level_config_eq, !given_app. right. right. right. left. destruct (get_given c _ Ht Hg) as [v [_ E]]. rewrite E.
  assert (Hi : In (str "activity_level", value_type v) backend_keys). { apply key_types_proof, (Ht _ v). apply (dget_In str_eq_dec), E. }
  apply key_found in Hi. assert (F : find_key (str "activity_level") = Some TyU32) by (vm_compute; reflexivity).
  rewrite F in Hi. injection Hi as Hi. destruct v; try discriminate Hi. left. reflexivity.
Qed.
Lemma level_no_length c i cls : ~ given (level_config c i cls) (str "tandem_array_length").
Proof.
  intros H. apply in_map_iff in H. destruct H as [[k v] [E H]]. cbn [fst] in E. subst k.
  destruct (level_In _ _ _ _ _ H) as [[_ H']|[[H' _]|[n [H' _]]]]; [|discriminate H'|discriminate H'].
  unfold copied in H'. cbn [In] in H'. decompose [or] H'; try discriminate; assumption.
Qed.
Lemma dget_app_first {V} (a b : list (pystr * V)) k : dget str_eq_dec (a ++ b) k = match dget str_eq_dec a k with Some v => Some v | None => dget str_eq_dec b k end.
Proof. induction a as [|[k' v] r IH]; cbn [dget app]; [reflexivity|]. destruct (str_eq_dec k k'); [reflexivity|exact IH]. Qed.
Lemma level_tandem c i cls : given c (str "patterns_kind") -> (tandem_asked (level_config c i cls) <-> tandem_asked c).
Proof.
  intros Hg. assert (E : dget str_eq_dec (level_config c i cls) (str "patterns_kind") = dget str_eq_dec c (str "patterns_kind")).
  { rewrite level_config_eq, dget_app_first. unfold copy1 at 1. destruct (dget str_eq_dec c (str "patterns_kind")) as [v|] eqn:E.
    - unfold dget at 1. destruct (str_eq_dec (str "patterns_kind") (str "patterns_kind")); [reflexivity|congruence].
    - apply dget_None in E. contradiction. }
  unfold tandem_asked. rewrite E. reflexivity.
Qed.
Lemma mapM_units {A B} (f : A -> result B) e l : (forall x, In x l -> f x = Err e) -> l <> [] -> mapM f l = Err e.
Proof. intros H Hn. destruct l as [|x r]; [congruence|]. cbn [mapM]. rewrite H by (left; reflexivity). reflexivity. Qed.
Lemma mapM_all {A} (f : A -> result unit) l : (forall x, In x l -> f x = Ok tt) -> exists r, mapM f l = Ok r.
Proof.
  induction l as [|x r IH]; intros H; cbn [mapM]; [eexists; reflexivity|]. rewrite H by (left; reflexivity). cbn [bind].
  destruct IH as [y ->]; [intros; apply H; right; assumption|]. eexists; reflexivity.
Qed.
Lemma several_proof c classes : well_typed c -> (forall k, In k several_keys -> given c k) ->
  dget str_eq_dec c (str "event_classes_regexes") = Some (VStrings classes) ->
  (part_config several_part c = Ok tt <-> classes = [] \/ ~ tandem_asked c) /\
  (tandem_asked c -> classes <> [] -> part_config several_part c = Err AssertionErr).
Proof.
  intros Ht Hg Hc.
  pose (one := fun ic : nat * pystr =>
       let level := level_config c (Z.of_nat (fst ic)) (snd ic) in
       bind (get_all level [str "adjusting_mode"]) (fun _ =>
       bind (find_patterns_config level) (fun _ =>
       get_all level [str "narrow_activities"; str "events_count"; str "min_activity_length"; str "activity_in_trace_filter_kind"]))).
  assert (E : part_config several_part c =
    bind (get_all c [str "event_classes_regexes"; str "activity_level"; str "patterns_kind";
                          str "adjusting_mode"; str "patterns_discovery_strategy"; str "narrow_activities";
                          str "events_count"; str "min_activity_length"; str "activity_in_trace_filter_kind"]) (fun _ =>
       match dget str_eq_dec c (str "event_classes_regexes") with
       | Some (VStrings classes) => bind (mapM one (combine (seq 0 (length classes)) (rev classes))) (fun _ => Ok tt)
       | _ => panic
       end)) by reflexivity.
  rewrite E, Hc. clear E.
  assert (G : forall d l, well_typed d -> (forall k, In k l -> given d k) -> forallb known_b l = true -> get_all d l = Ok tt).
  { intros d l Hd Hl Hk. destruct (all_given d l Hd (known_all l Hk)) as [[_ B]|[[k [A1 A2]] _]]; [exact B|]. exfalso. apply A2, Hl, A1. }
  rewrite (G c) by
    (first [exact Ht|vm_compute; reflexivity|intros k Hk; apply Hg; unfold several_keys; cbn [In] in *; tauto]).
  cbn [bind].
  assert (K : given c (str "patterns_kind")) by (apply Hg; unfold several_keys; cbn [In]; tauto).
  assert (O : forall ic, (tandem_asked c -> one ic = Err AssertionErr) /\ (~ tandem_asked c -> one ic = Ok tt)).
  { intros [i cls]. unfold one. cbn [fst snd]. cbn zeta. pose proof (level_typed c (Z.of_nat i) cls Ht) as Hl.
    assert (GL : forall l, (forall k, In k l -> In k copied /\ In k several_keys) -> forallb known_b l = true -> get_all (level_config c (Z.of_nat i) cls) l = Ok tt).
    { intros l Hs Hk. apply G; [exact Hl| |exact Hk]. intros k Hi. destruct (Hs k Hi). apply level_given; [assumption|]. apply Hg. assumption. }
    rewrite !GL by (first [vm_compute; reflexivity|intros k Hk; unfold copied, several_keys; cbn [In] in *; tauto]). cbn [bind].
    assert (K1 : given (level_config c (Z.of_nat i) cls) (str "patterns_kind")) by (apply level_given; [unfold copied; cbn [In]; tauto|exact K]).
    assert (K2 : given (level_config c (Z.of_nat i) cls) (str "activity_level")).
    { apply level_level; [exact Ht|]. apply Hg; unfold several_keys; cbn [In]; tauto. }
    destruct (find_patterns_proof _ Hl K1 K2) as [P1 P2]. pose proof (level_tandem c (Z.of_nat i) cls K) as LT. split; intros T.
    - apply LT in T. destruct (P1 T) as [_ ->]; [reflexivity|apply level_no_length].
    - assert (T' : ~ tandem_asked (level_config c (Z.of_nat i) cls)) by (rewrite LT; exact T).
      destruct (P2 T') as [-> _]; [reflexivity|]. apply level_given; [unfold copied; cbn [In]; tauto|]. apply Hg; unfold several_keys; cbn [In]; tauto. }
  assert (Bad : tandem_asked c -> classes <> [] ->
      bind (mapM one (combine (seq 0 (length classes)) (rev classes))) (fun _ => Ok tt) = Err AssertionErr).
  { intros T Hn. rewrite (mapM_units one AssertionErr); [reflexivity| |].
    - intros x _. apply (O x), T.
    - assert (L : length (combine (seq 0 (length classes)) (rev classes)) = length classes).
      { rewrite combine_length, seq_length, rev_length. apply Nat.min_id. }
      intros Z. rewrite Z in L. destruct classes; [congruence|discriminate L]. }
  split; [split|exact Bad].
  - intros H. destruct classes as [|x r]; [left; reflexivity|]. right. intros T. rewrite Bad in H; [discriminate|exact T|discriminate].
  - intros [->|T]; [reflexivity|]. destruct (mapM_all one (combine (seq 0 (length classes)) (rev classes))) as [y ->]; [|reflexivity].
    intros x _. apply (O x), T.
Qed.
