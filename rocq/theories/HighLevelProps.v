(** Property C52: discovery of activities on several levels. *)
From Verif Require Import Py XesModel LogModel HashModel PatternModel PatternSpec TreeModel TreeSpec ActModel ActSpec ActLogModel ActLogSpec
  HighModel HighSpec HighProofs HighLevelProofs HighProps HighFresh.

(** The log stays; what was found before stays, in order, and the instances of every trace are one
    after the other; new activities come after the old ones, each on the level of one of the
    extractors, numbered and named without repetition; every new instance has the classes of one of
    its activities under one of the extractors. *)
Theorem C52_several_levels : forall uuids source strat minimum mode accept narrow extractors level c g c' g' l before,
  c_log c = Some l -> instances_in c l before ->
  Forall2 (fun a t => ordered 0 (length (t_events t)) a) before (l_traces l) -> (forall ce, In ce extractors -> classifies l ce) -> extractors <> [] ->
  several_levels uuids source strat minimum mode accept narrow extractors level c g = Ok (c', g') ->
  exists new found, c_log c' = Some l /\ c_activities c' = Some (activities_in c ++ new) /\ c_instances c' = Some found /\
    Forall2 (fun a t => ordered 0 (length (t_events t)) a) found (l_traces l) /\
    (forall i t b f, nth_error (l_traces l) i = Some t -> nth_error before i = Some b -> nth_error found i = Some f ->
       subseq b f /\ forall x, In x f -> In x b \/ exists ce, In ce extractors /\ found_with narrow ce (activities_in c ++ new) t x) /\
    NoDup (map (fun n => nd_id (an_data n)) (everywhere new)) /\
    forall n, In n (everywhere new) -> numbered (g_index g) (g_index g') n /\
      exists k ce, nth_error extractors k = Some ce /\ nd_level (an_data n) = (level + Z.of_nat k)%Z /\ exists tl, stands_for ce tl n.
Proof.
  intros uuids source strat minimum mode accept narrow extractors level c g c' g' l before El Hi Ho Hce Hne H.
  destruct (levels_found _ _ _ _ _ _ _ _ _ _ _ _ _ _ _ El Hi Ho Hce H) as [new [found [A1 [A2 [A3 [A4 [A5 [A6 [A7 [A8 A9]]]]]]]]]].
  destruct (A4 Hne) as [B1 B2]. exists new, found. repeat (split; [assumption|]). intros n Hn. destruct (A9 n Hn) as [N [k [ce [g0 [b0 [K1 [K2 K3]]]]]]].
  split; [exact N|]. exists k, ce. split; [exact K1|]. split; [exact K2|]. eexists. exact K3.
Qed.
Print Assumptions C52_several_levels.

(** Searching the log itself trace by trace, the repeat set of an activity points at its classes. *)
Theorem C52_repeat_sets_point_at_the_log : forall uuids source minimum accept narrow extractors level c g c' g' l before,
  c_log c = Some l -> instances_in c l before ->
  Forall2 (fun a t => ordered 0 (length (t_events t)) a) before (l_traces l) -> (forall ce, In ce extractors -> classifies l ce) ->
  several_levels uuids source FromAllTraces minimum FromAllLog accept narrow extractors level c g = Ok (c', g') ->
  exists new, activities_in c' = activities_in c ++ new /\ forall n, In n (everywhere new) ->
    exists k ce, nth_error extractors k = Some ce /\ nd_level (an_data n) = (level + Z.of_nat k)%Z /\ stands_for ce l n.
Proof.
  intros uuids source minimum accept narrow extractors level c g c' g' l before El Hi Ho Hce H.
  destruct (levels_found _ _ _ _ _ _ _ _ _ _ _ _ _ _ _ El Hi Ho Hce H) as [new [found [A1 [A2 [A3 [A4 [A5 [A6 [A7 [A8 A9]]]]]]]]]].
  exists new. split; [exact A2|]. intros n Hn. destruct (A9 n Hn) as [N [k [ce [g0 [b0 [K1 [K2 K3]]]]]]]. exists k, ce. auto.
Qed.
Print Assumptions C52_repeat_sets_point_at_the_log.

(** With the default filter and minimal length nothing that could be attached on the last level is
    left. *)
Theorem C52_nothing_left : forall uuids source strat minimum mode narrow pre last level c g c' g' l before, minimum <= 1 ->
  c_log c = Some l -> instances_in c l before ->
  Forall2 (fun a t => ordered 0 (length (t_events t)) a) before (l_traces l) -> (forall ce, In ce (pre ++ [last]) -> classifies l ce) ->
  several_levels uuids source strat minimum mode (fun _ => true) narrow (pre ++ [last]) level c g = Ok (c', g') ->
  forall found i t f j e s, c_instances c' = Some found -> nth_error (l_traces l) i = Some t -> nth_error found i = Some f ->
    nth_error (t_events t) j = Some e -> last e = Ok s -> ~ covered f j ->
    forall a, In a (activities_in c') -> ~ In (string_poly_hash s) (an_set a).
Proof. exact levels_covered. Qed.
Print Assumptions C52_nothing_left.

(** No uuid is used twice: the uuids are drawn in order, the result depends only on those drawn between
    the two states of the counter, and each level starts where the one before has stopped. *)
Theorem C52_uuids_used_once : forall uuids source strat minimum mode accept narrow pre post level c g c' g',
  several_levels uuids source strat minimum mode accept narrow (pre ++ post) level c g = Ok (c', g') ->
  exists cm gm, g_uuid g <= g_uuid gm <= g_uuid g' /\
    (forall v, (forall i, g_uuid g <= i < g_uuid gm -> v i = uuids i) ->
       several_levels v source strat minimum mode accept narrow pre level c g = Ok (cm, gm)) /\
    (forall v, (forall i, g_uuid gm <= i < g_uuid g' -> v i = uuids i) ->
       several_levels v source strat minimum mode accept narrow post (level + Z.of_nat (length pre)) cm gm = Ok (c', g')).
Proof.
  intros uuids source strat minimum mode accept narrow pre post level c g c' g' H. rewrite levels_app in H. apply bind_ok in H. destruct H as [[cm gm] [H1 H2]].
  cbn [fst snd] in H2. exists cm, gm. destruct (levels_uses _ _ _ _ _ _ _ _ _ _ _ _ _ H1) as [L1 U1]. destruct (levels_uses _ _ _ _ _ _ _ _ _ _ _ _ _ H2) as [L2 U2].
  split; [lia|]. split; [exact U1|exact U2].
Qed.
Print Assumptions C52_uuids_used_once.

(** * Cases *)

(** The class of an event one level up: its name up to the first dot. *)
Fixpoint up_to_dot (s : pystr) : pystr := match s with [] => [] | c :: r => if (c =? 46)%N then [] else c :: up_to_dot r end.
Definition prefix_of (e : event) : result pystr := bind (name_of_event e) (fun s => Ok (up_to_dot s)).
Definition seen_instances (c : context) : list (list (pystr * Z * nat * nat)) :=
  match c_instances c with Some is => map (map (fun x => (nd_name (an_data (in_node x)), nd_level (an_data (in_node x)), in_start x, in_length x))) is | None => [] end.
Definition two_level_log : eventlog := log_of_traces [evs ["p.1"; "q"; "A"; "r"; "A"; "p.2"]%string; evs ["A"; "p.3"; "A"; "A.x"]%string].
Definition two_levels (strat : discovery) (l : eventlog) : result (context * globals) :=
  several_levels no_uuids (map repeats_of) strat 1 FromAllLog (fun _ => true) true [name_of_event; prefix_of] 0 (start_with l) (mkGlobals 0 0).
(** A is found on level 0, p on level 1; nothing is found for q and r. *)
Example C52_case : match two_levels FromAllTraces two_level_log with
  | Ok (c, g) => seen_instances c = [[(str "p", 1%Z, 0, 1); (str "A", 0%Z, 2, 1); (str "A", 0%Z, 4, 1); (str "p", 1%Z, 5, 1)];
                                     [(str "A", 0%Z, 0, 1); (str "p", 1%Z, 1, 1); (str "A", 0%Z, 2, 1); (str "A", 0%Z, 3, 1)]]%string
  | Err _ => False
  end.
Proof. vm_compute. reflexivity. Qed.
Example C52_case_hypotheses : instances_in (start_with two_level_log) two_level_log [[]; []] /\
  Forall2 (fun a t => ordered 0 (length (t_events t)) a) ([[]; []] : list (list inst)) (l_traces two_level_log) /\
  forall ce, In ce [name_of_event; prefix_of] -> classifies two_level_log ce.
Proof.
  split; [right; split; reflexivity|]. split; [repeat constructor; cbn; lia|].
  intros ce Hce t e Ht He. cbn in Ht. destruct Ht as [<-|[<-|[]]]; cbn in He; cbn in Hce.
  all: repeat destruct He as [<-|He]; try destruct He; destruct Hce as [<-|[<-|[]]]; eexists; reflexivity.
Qed.

(** The last instance of that case: A.x is given to the activity A of level 0 because its class on
    level 1 is A; on level 0 its class is not one of that activity. *)
Theorem C52_classes_on_own_level_refuted : exists l c' g' found f t x e s,
  two_levels FromAllTraces l = Ok (c', g') /\ c_instances c' = Some found /\ nth_error found 1 = Some f /\ nth_error (l_traces l) 1 = Some t /\
  In x f /\ nd_level (an_data (in_node x)) = 0%Z /\ In e (piece (t_events t) (in_start x) (in_length x)) /\
  name_of_event e = Ok s /\ ~ In (string_poly_hash s) (an_set (in_node x)).
Proof.
  exists two_level_log. set (r := two_levels _ _). vm_compute in r.
  match eval cbv delta [r] in r with Ok (?c, ?g) =>
    exists c, g; match eval cbv in (c_instances c) with Some ?i => exists i;
      match eval cbv in (nth_error i 1) with Some ?f => exists f, (evs ["A"; "p.3"; "A"; "A.x"]%string);
        match eval cbv in (nth_error f 3) with Some ?x => exists x, (ev "A.x"), (str "A.x") end end end end.
  repeat (split; [reflexivity|]). split; [right; right; right; left; reflexivity|]. split; [reflexivity|].
  split; [left; reflexivity|]. split; [reflexivity|]. vm_compute. intros [H|[]]. discriminate.
Qed.
Print Assumptions C52_classes_on_own_level_refuted.

(** With the default strategy, one merged trace, the repeat sets point at places of the merged trace,
    but CreateLogsForActivitiesWithPromote looks at those places in the log: the instances of A, which
    it finds when the traces are searched one by one, are lost. *)
Definition promoted_of (r : result (context * globals)) (l : eventlog) : result (dict pystr (list trace)) :=
  bind r (fun p => bind (entry (c_instances (fst p))) (fun found => create_logs_for_activities_with_promote l found 1 [name_of_event; prefix_of] true)).
Definition merged_case : eventlog := log_of_traces [evs ["x"; "y"]%string; evs ["A"; "q"; "A"; "r"]%string].
Theorem C52_merged_trace_promotion_refuted : exists l r1 r2 found1 found2, two_levels FromAllTraces l = Ok r1 /\ two_levels FromSingleMergedTrace l = Ok r2 /\
  c_instances (fst r1) = Some found1 /\ c_instances (fst r2) = Some found2 /\
  (exists x, In x (concat found2) /\ nd_name (an_data (in_node x)) = str "A") /\
  match promoted_of (Ok r1) l with Ok d => dget str_eq_dec d (str "A") = Some [evs ["A"]%string; evs ["A"]%string] | Err _ => False end /\
  match promoted_of (Ok r2) l with Ok d => dget str_eq_dec d (str "A") = None | Err _ => False end.
Proof.
  exists merged_case. set (a := two_levels FromAllTraces _). set (b := two_levels FromSingleMergedTrace _). vm_compute in a, b.
  match eval cbv delta [a] in a with Ok ?r1 => match eval cbv delta [b] in b with Ok ?r2 => exists r1, r2;
    match eval cbv in (c_instances (fst r1)) with Some ?i => exists i end; match eval cbv in (c_instances (fst r2)) with Some ?i => exists i end end end.
  repeat (split; [reflexivity|]). split; [eexists; split; [left; reflexivity|reflexivity]|]. split; vm_compute; reflexivity.
Qed.
Print Assumptions C52_merged_trace_promotion_refuted.

(** Two levels on two traces in one merged trace draw two uuids each. *)
Example C52_uuids_case : match two_levels FromSingleMergedTrace two_level_log with Ok (c, g) => g_uuid g = 4 | Err _ => False end.
Proof. vm_compute. reflexivity. Qed.
