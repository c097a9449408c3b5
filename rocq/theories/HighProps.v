(** Property C46: discovery repeated until nothing is found. *)
From Verif Require Import Py XesModel LogModel HashModel PatternModel PatternSpec TreeModel ActModel ActSpec ActLogModel ActLogSpec HighModel HighSpec HighProofs.

(** The loop ends on every log, whatever the repeats found, the filter and the class extractor, when
    the two pipelines given by the caller leave log and instances alone: with more rounds than there
    are events the bound on the rounds is never reached and does not matter. *)
Theorem C46_terminates : forall uuids source ce strat accept narrow uh increase before after level c g l,
  extractor_ends ce -> ends before -> ends after -> keeps before -> keeps after -> c_log c = Some l ->
  exists r, r <> Err Diverges /\
    forall fuel, size_of l < fuel -> until_no_more uuids source ce strat accept narrow uh increase before after fuel level c g = r.
Proof.
  intros uuids source ce strat accept narrow uh increase before after level c g l Hce Eb Ea Kb Ka El.
  exists (until_no_more uuids source ce strat accept narrow uh increase before after (S (size_of l)) level c g).
  unfold until_no_more. rewrite (context_events_ok _ _ El). cbn [bind]. split.
  - apply (loop_ends uuids source ce strat accept narrow uh increase before after Hce Eb Ea Kb Ka (S (size_of l)) (S (size_of l))); [exact El|lia|lia].
  - intros fuel H. apply (loop_ends uuids source ce strat accept narrow uh increase before after Hce Eb Ea Kb Ka fuel (S (size_of l))); [exact El|lia|lia].
Qed.
Print Assumptions C46_terminates.

(** The log of the result has as many traces, no more events, and unfolds to the events of the first
    log; either nothing more is found in it, and the context is cleared, or every instance found last
    is a single event. *)
Theorem C46_result : forall uuids source ce strat accept narrow uh increase before after fuel level c g l c' g',
  extractor_ends ce -> ends before -> ends after -> keeps before -> keeps after -> c_log c = Some l ->
  until_no_more uuids source ce strat accept narrow uh increase before after fuel level c g = Ok (c', g') ->
  exists l', c_log c' = Some l' /\ same_underlying l l' /\ length (l_traces l') = length (l_traces l) /\ size_of l' <= size_of l /\
    ((cleared l' c' /\ exists level0 g0 g1 cx nodes hs found,
        discover_from_patterns uuids source strat ce level0 c' g0 = Ok (cx, g1) /\ c_activities cx = Some nodes /\
        hashes_traces ce l' = Ok hs /\ extract_log nd_name nodes true accept hs = Some found /\ (forall f, In f found -> f = [])) \/
     (exists found, c_instances c' = Some found /\ (exists f, In f found /\ f <> []) /\ forall a x, In a found -> In x a -> in_length x = 1)).
Proof.
  intros uuids source ce strat accept narrow uh increase before after fuel level c g l c' g' Hce Eb Ea Kb Ka El.
  unfold until_no_more. rewrite (context_events_ok _ _ El). cbn [bind]. apply loop_result; assumption.
Qed.
Print Assumptions C46_result.

(** * Cases *)

(** The maximal repeats of a trace by their definition: the first occurrence of every piece that occurs
    twice or more and can be extended neither to the left nor to the right in all its occurrences. *)
Definition before_at (t : list N) (i : nat) : option N := match i with O => None | S j => nth_error t j end.
Definition opt_same (a b : option N) : bool := match a, b with Some x, Some y => N.eqb x y | _, _ => false end.
Definition all_same (l : list (option N)) : bool := match l with [] => true | x :: r => forallb (opt_same x) r end.
Definition is_repeat (t : list N) (i n : nat) : bool :=
  let os := occurrences (slice t i n) t in
  match os with
  | o :: _ :: _ => (o =? i) && negb (all_same (map (before_at t) os)) && negb (all_same (map (fun j => nth_error t (j + n)) os))
  | _ => false
  end.
Definition repeats_of (t : list N) : list sub_array :=
  flat_map (fun i => flat_map (fun n => if is_repeat t i n then [mkSub i n] else []) (seq 1 (length t - i))) (seq 0 (length t)).
Definition ev (s : string) : event := [(concept_name, VStr (str s))].
Definition evs (l : list string) : trace := trace_of_events (map ev l).
Definition no_uuids (n : nat) : pystr := str "uuid" ++ show_int (Z.of_nat n).
Definition start_with (l : eventlog) : context := with_log new_context l.
(** What can be seen of a result: the names of the events, how many instances and activities there are. *)
Definition seen (r : result (context * globals)) : option (list (list pystr) * nat * nat) :=
  match r with
  | Ok (c, _) =>
      match c_log c, c_instances c, c_activities c with
      | Some l, Some i, Some a => Some (map (fun t => event_names (t_events t)) (l_traces l), list_sum (map (@length _) i), length a)
      | _, _, _ => None
      end
  | Err _ => None
  end.

Example C46_repeats_case : repeats_of [1;2;9;1;2;8;1]%N = [mkSub 0 1; mkSub 0 2].
Proof. vm_compute. reflexivity. Qed.
(** Two rounds: the first replaces a b three times, the second finds a::b three times as single events. *)
Example C46_case :
  seen (until_no_more no_uuids (map repeats_of) name_of_event FromAllTraces (fun _ => true) true false false None None 20 0
    (start_with (log_of_traces [evs ["a"; "b"; "x"; "a"; "b"; "y"; "z"]%string; evs ["x"; "a"; "b"]%string])) (mkGlobals 0 0)) =
  Some ([[str "a::b"; str "x"; str "a::b"; str "y"; str "z"]; [str "x"; str "a::b"]], 3, 1).
Proof. vm_compute. reflexivity. Qed.
Example C46_case_hypotheses : extractor_ends name_of_event /\ ends None /\ keeps None /\
  keeps (Some (fun c g => Ok (with_patterns c [], g))) /\ ends (Some (fun c g => Ok (with_patterns c [], g))).
Proof.
  split; [intros e; unfold name_of_event, egetitem; destruct (dgetitem str_eq_dec e concept_name) as [[]|] eqn:E; cbn; try discriminate|].
  { intros F. injection F as ->. unfold dgetitem in E. destruct (dget _ e concept_name); discriminate. }
  split; [intros f c g H; discriminate|]. split; [intros f c g c' g' H; discriminate|].
  split; [intros f c g c' g' H; injection H as <-; intros E; injection E as <- <-; split; reflexivity|].
  intros f c g H; injection H as <-; discriminate.
Qed.

(** Without the hypothesis on the pipelines the loop need not end: one that puts back, in turn, a
    shorter and a longer log. *)
Definition short_log : eventlog := log_of_traces [evs ["a"; "x"; "a"]%string].
Definition long_log : eventlog := log_of_traces [evs ["a"; "x"; "a"; "y"]%string].
Definition swap_logs (c : context) (g : globals) : result (context * globals) :=
  match c_log c with
  | Some l => Ok (with_log c (if size_of l =? 3 then long_log else short_log), g)
  | None => Err ValueError
  end.
Definition a_node (i : N) (u : pystr) : anode ndata := ANode (mkND (str "a") 0 u i (mkRS 0 1 0)) [string_poly_hash (str "a")] [].
Definition cleared_context (l : eventlog) : context :=
  mkContext (Some l) (Some []) (Some (map (fun _ => []) (l_traces l))) (Some []) (Some (map (fun _ => []) (l_traces l))).
Ltac ctx := cbn [cleared_context entry c_log bind fst snd with_log with_patterns with_repeat_sets with_activities with_trace_activities
  c_patterns c_activities c_repeat_sets c_instances activity_nodes ended hook].
Lemma swap_found l g : l = short_log \/ l = long_log ->
  discover_from_patterns no_uuids (map repeats_of) FromAllTraces name_of_event 0 (cleared_context l) g =
  Ok (with_patterns (with_activities (cleared_context l) [a_node (g_index g) (unique_name (g_index g))]) [[mkSub 0 1]], mkGlobals (g_index g + 1) (g_uuid g)).
Proof.
  intros Hl. set (hs := match hashes_traces name_of_event l with Ok hs => hs | Err _ => [] end).
  assert (H1 : hashes_traces name_of_event l = Ok hs) by (destruct Hl as [-> | ->]; vm_compute; reflexivity).
  assert (H2 : map repeats_of hs = [[mkSub 0 1]]) by (destruct Hl as [-> | ->]; vm_compute; reflexivity).
  assert (H3 : create_repeat_sets hs [[mkSub 0 1]] = [mkRS 0 1 0]) by (destruct Hl as [-> | ->]; vm_compute; reflexivity).
  assert (H4 : extract_set_events hs (mkRS 0 1 0) = Ok [string_poly_hash (str "a")]) by (destruct Hl as [-> | ->]; vm_compute; reflexivity).
  assert (H5 : activity_name name_of_event l (mkRS 0 1 0) = Ok (str "a")) by (destruct Hl as [-> | ->]; vm_compute; reflexivity).
  unfold discover_from_patterns, discover_patterns, discover_repeat_sets, discover_activities, activities_tree.
  do 6 (ctx; unfold activity_node; rewrite ?H1, ?H2, ?H3, ?H4, ?H5). reflexivity.
Qed.
Lemma swap_round : forall l l' fuel c g, (l = short_log /\ l' = long_log \/ l = long_log /\ l' = short_log) -> c_log c = Some l ->
  exists c' g', c_log c' = Some l' /\
  until_loop no_uuids (map repeats_of) name_of_event FromAllTraces (fun _ => true) true true false None (Some swap_logs) (S fuel) (size_of l) 0 c g =
  until_loop no_uuids (map repeats_of) name_of_event FromAllTraces (fun _ => true) true true false None (Some swap_logs) fuel (size_of l') 0 c' g'.
Proof.
  intros l l' fuel c g Hl El. destruct c as [lg a i rs ps]. cbn in El. subst lg.
  cbn [until_loop]. unfold clear_activities. cbn [c_log entry bind]. fold (cleared_context l).
  unfold instances_from_patterns. rewrite swap_found by tauto. cbn [bind fst snd]. unfold discover_in_traces.
  ctx.
  generalize (unique_name (g_index g)) as u. generalize (g_index g) as i0. intros i0 u.
  destruct Hl as [[-> ->]|[-> ->]].
  all: match goal with |- context [bind (hashes_traces name_of_event ?l) _] =>
         let h := eval vm_compute in (hashes_traces name_of_event l) in change (hashes_traces name_of_event l) with h end.
  all: ctx.
  all: match goal with |- context [ended (extract_log nd_name ?a true ?f ?h)] =>
         let e := eval vm_compute in (extract_log nd_name a true f h) in replace (extract_log nd_name a true f h) with e by (vm_compute; reflexivity) end.
  all: ctx; cbn [map length list_sum fold_right Nat.add Nat.eqb].
  all: unfold create_log; ctx.
  all: match goal with |- context [create_new_log_from_activities ?l ?a true InsertAllEvents] =>
         let e := eval vm_compute in (create_new_log_from_activities l a true InsertAllEvents) in
         replace (create_new_log_from_activities l a true InsertAllEvents) with e by (vm_compute; reflexivity) end.
  all: ctx; unfold swap_logs at 1; ctx.
  all: match goal with |- context [size_of ?l =? 3] =>
         let e := eval vm_compute in (size_of l =? 3) in replace (size_of l =? 3) with e by (vm_compute; reflexivity) end.
  all: ctx; unfold context_events; ctx.
  all: match goal with |- context [if ?a =? size_of ?b then _ else _] =>
         let e := eval vm_compute in (a =? size_of b) in replace (a =? size_of b) with e by (vm_compute; reflexivity) end.
  all: eexists _, _; (split; [|reflexivity]); reflexivity.
Qed.
Theorem C46_any_pipeline_refuted : exists after l, ends (Some after) /\
  forall fuel, until_no_more no_uuids (map repeats_of) name_of_event FromAllTraces (fun _ => true) true true false None (Some after) fuel 0
                 (start_with l) (mkGlobals 0 0) = Err Diverges.
Proof.
  exists swap_logs, short_log. split.
  - intros f c g E. injection E as <-. unfold swap_logs. destruct (c_log c); discriminate.
  - intros fuel. unfold until_no_more. rewrite (context_events_ok (start_with short_log) short_log eq_refl). cbn [bind].
    assert (G : forall fuel l c g, (l = short_log \/ l = long_log) -> c_log c = Some l ->
      until_loop no_uuids (map repeats_of) name_of_event FromAllTraces (fun _ => true) true true false None (Some swap_logs) fuel (size_of l) 0 c g = Err Diverges).
    { clear fuel. induction fuel as [|fuel IH]; intros l c g Hl El; [reflexivity|].
      destruct (swap_round l (if size_of l =? 3 then long_log else short_log) fuel c g) as [c' [g' [E1 E2]]]; [|exact El|].
      - destruct Hl as [-> | ->]; vm_compute; tauto.
      - rewrite E2. apply IH; [destruct Hl as [-> | ->]; vm_compute; tauto|exact E1]. }
    apply G; [left; reflexivity|reflexivity].
Qed.
Print Assumptions C46_any_pipeline_refuted.

(** should_narrow_activity = False is not handed on: an instance is given to an activity below the
    ones that extraction without narrowing would choose from. *)
Theorem C46_narrow_flag_refuted : exists l c' g' acts found,
  instances_from_patterns no_uuids (map repeats_of) FromAllTraces name_of_event 0 (fun _ => true) false (start_with l) (mkGlobals 0 0) = Ok (c', g') /\
  c_activities c' = Some acts /\ c_instances c' = Some found /\ exists f x, In f found /\ In x f /\ ~ In (in_node x) acts.
Proof.
  exists (log_of_traces [evs ["a"; "b"; "x"; "a"; "b"; "y"; "a"]%string]).
  set (r := instances_from_patterns _ _ _ _ _ _ _ _ _). vm_compute in r.
  match eval cbv delta [r] in r with Ok (?c, ?g) =>
    exists c, g; match eval cbv in (c_activities c) with Some ?a => exists a end; match eval cbv in (c_instances c) with Some ?i => exists i end end.
  split; [reflexivity|]. split; [reflexivity|]. split; [reflexivity|].
  eexists _, _. split; [left; reflexivity|]. split; [right; right; left; reflexivity|].
  intros [H|[]]. discriminate.
Qed.
Print Assumptions C46_narrow_flag_refuted.
