(** C64: the alpha+ and alpha++ algorithms of the backend. *)
From Coq Require Import Permutation.
From Verif Require Import Py PyFacts InfoModel InfoSpec ReplayModel ReplaySpec ReplayProofs RInfoModel RInfoSpec RInfoProofs AlphaModel AlphaSpec AlphaProofs AlphaProofs2 AlphaProofs3 AlphaProofs4 AlphaProofs5 AlphaProofs6 AlphaProps PlusSpec PlusProofs PlusProofs2.

(** What is around [b] is the pair of a place; [x] and [y] alternate. *)
Definition pl_log : list (list pystr) :=
  [[str "a"; str "b"; str "b"; str "c"; str "x"; str "y"; str "x"; str "y"; str "x"; str "z"]; [str "a"; str "b"; str "c"; str "x"; str "z"]; [str "a"; str "c"; str "x"; str "z"]].
Definition names_and_places (r : result (pnet * N * dict N aset)) : option (list (pystr * list pystr * list pystr)) :=
  match r with
  | Ok (net, _, _) => Some (map (fun t => (tr_name t,
      flat_map (fun a => match dget N.eq_dec (n_places net) (arc_place a) with Some n => [n] | None => [] end) (tr_in t),
      flat_map (fun a => match dget N.eq_dec (n_places net) (arc_place a) with Some n => [n] | None => [] end) (tr_out t))) (n_trans net))
  | Err _ => None
  end.

(** If no trace has less than two events and none starts or ends with a name which follows itself, both parts end without
    a panic, in whatever order hash tables are walked over, and give the net of the algorithm: a place for each maximal
    pair over the other names, and a transition for each name which follows itself at one place. *)
Theorem C64_net : forall ord, any_order ord -> forall log, long_enough log -> starts_well log -> forall next, exists loops fuel0 base net next' table,
  loops_of log loops /\
  (forall fuel plus_plus, fuel0 <= fuel -> discover_alpha_plus_part ord fuel log plus_plus next = Ok ((net, next'), table)) /\
  plus_net log loops base /\ with_loops log loops base net /\ (forall i, In i (all_ids net) -> (i < next')%N) /\
  (forall place x, In (place, x) table <-> In (place, as_string x) (n_places base) /\ tidy x /\
     maximal (plus_causal log loops) (unrelated log (Some loops)) (as_left x) (as_right x) /\ stands_for base place (as_left x) (as_right x)).
Proof. intros ord O log. exact (plus_net_proof ord log O). Qed.
Print Assumptions C64_net.
Example C64_net_case : (long_enough pl_log /\ starts_well pl_log) /\
  names_and_places (discover_alpha_plus_part as_it_is 20 pl_log false 0) = Some
  [(str "a", [str "StartPlace"], [str "({a}, {c})"]);
   (str "c", [str "({a}, {c})"], [str "({c,y}, {x})"]);
   (str "x", [str "({c,y}, {x})"], [str "({x}, {y,z})"]);
   (str "y", [str "({x}, {y,z})"], [str "({c,y}, {x})"]);
   (str "z", [str "({x}, {y,z})"], [str "EndPlace"]);
   (str "b", [str "({a}, {c})"], [str "({a}, {c})"])] /\
  match discover_alpha_plus_part as_it_is 20 pl_log false 0 with
  | Ok (net, _, _) => match replay_petri_net 100 pl_log net with Ok (Some l) => map replayed l | _ => [] end
  | Err _ => []
  end = [true; true; true].
Proof.
  split; [|split; vm_compute; reflexivity].
  destruct (discover_alpha_plus_part as_it_is 20 pl_log false 0) as [[[net next'] table]|e] eqn:E; [|vm_compute in E; discriminate].
  destruct (plus_result_proof as_it_is pl_log as_it_is_any 20 false 0%N net next' table E) as (H1 & H2 & _). auto.
Qed.
(** With whatever number of steps a part ended, what it gave is that net, and the log was such a log. *)
Theorem C64_result : forall ord, any_order ord -> forall log fuel plus_plus next net next' table,
  discover_alpha_plus_part ord fuel log plus_plus next = Ok ((net, next'), table) ->
  long_enough log /\ starts_well log /\ exists loops base, loops_of log loops /\ plus_net log loops base /\ with_loops log loops base net /\
  (forall i, In i (all_ids net) -> (i < next')%N) /\
  (forall place x, In (place, x) table <-> In (place, as_string x) (n_places base) /\ tidy x /\
     maximal (plus_causal log loops) (unrelated log (Some loops)) (as_left x) (as_right x) /\ stands_for base place (as_left x) (as_right x)).
Proof. intros ord O log. exact (plus_result_proof ord log O). Qed.
Print Assumptions C64_result.

(** All other logs are a panic. *)
Theorem C64_short_trace_panics : forall ord log t, In t log -> length t < 2 ->
  forall fuel plus_plus next, discover_alpha_plus_part ord fuel log plus_plus next = rpanic.
Proof. intros ord log t Ht Hl. apply short_panics. intros H. specialize (H t Ht). lia. Qed.
Print Assumptions C64_short_trace_panics.
Theorem C64_loop_at_an_end_panics : forall ord, any_order ord -> forall log c, long_enough log -> begins_trace log c \/ ends_trace log c -> next_to log c c ->
  forall next, exists fuel0, forall fuel plus_plus, fuel0 <= fuel -> discover_alpha_plus_part ord fuel log plus_plus next = rpanic.
Proof. intros ord O log c H H1 H2. apply loop_end_panics; [exact O|exact H|]. exists c. split; assumption. Qed.
Print Assumptions C64_loop_at_an_end_panics.
Example C64_panics_case : discover_alpha_plus_part as_it_is 20 [[str "a"; str "b"]; [str "a"]] false 0 = rpanic /\
  discover_alpha_plus_part turned 20 [[str "a"; str "a"; str "b"]] false 0 = rpanic /\ discover_alpha_plus_part turned 20 [[str "a"; str "b"; str "b"]] true 0 = rpanic.
Proof. vm_compute. repeat split; reflexivity. Qed.
(** So not for every log there is a net. *)
Theorem C64_every_log_has_a_net_refuted : exists log, (forall t, In t log -> length t = 3) /\ forall ord, any_order ord ->
  exists fuel0, forall fuel plus_plus, fuel0 <= fuel -> discover_alpha_plus_part ord fuel log plus_plus 0 = rpanic.
Proof.
  exists [[str "a"; str "a"; str "b"]]. split; [intros t [<-|[]]; reflexivity|]. intros ord O. apply (C64_loop_at_an_end_panics ord O _ (str "a")).
  - intros t [<-|[]]. cbn. lia.
  - left. exists [str "a"; str "b"]. left. reflexivity.
  - exists [], [str "b"]. left. reflexivity.
Qed.
Print Assumptions C64_every_log_has_a_net_refuted.

(** Alpha++ never adds an arc: it gives what alpha+ gives, for any log, whether that is a net or a panic. *)
Theorem C64_plus_plus_is_plus : forall ord, any_order ord -> forall log fuel next,
  discover_alpha_plus_part ord fuel log true next = discover_alpha_plus_part ord fuel log false next.
Proof. intros ord O log. exact (plus_plus_same_proof ord log O). Qed.
Print Assumptions C64_plus_plus_is_plus.
Example C64_plus_plus_case : exists v, discover_alpha_plus_part turned 20 pl_log true 7 = Ok v /\ discover_alpha_plus_part turned 20 pl_log false 7 = Ok v.
Proof. eexists. split; vm_compute; reflexivity. Qed.

(** Between two names which do not follow themselves there is a place iff the first directly follows the second, where the
    names which follow themselves are left out, and not conversely or each occurs around the other. *)
Theorem C64_connected : forall ord, any_order ord -> forall log fuel plus_plus next net next' table,
  discover_alpha_plus_part ord fuel log plus_plus next = Ok ((net, next'), table) -> exists loops, loops_of log loops /\
  forall a b, ~ next_to log a a -> ~ next_to log b b ->
  ((exists place, feeds net place a /\ drains net place b) <->
   follows log (Some loops) a b /\ (~ follows log (Some loops) b a \/ (triangle log a b /\ triangle log b a)) /\
   ~ follows log (Some loops) a a /\ ~ follows log (Some loops) b b).
Proof.
  intros ord O log fuel pp next net next' table E. destruct (plus_result_proof ord log O fuel pp next net next' table E) as (_ & _ & loops & base & L & A & W & _). exists loops. split; [exact L|]. intros a b Ha Hb.
  rewrite (plus_connected_proof log loops base net L A W a b Ha Hb). unfold plus_causal. tauto.
Qed.
Print Assumptions C64_connected.
Example C64_connected_case : match discover_alpha_plus_part as_it_is 20 pl_log false 0 with
  | Ok (net, _, _) => feeds net 9%N (str "x") /\ drains net 9%N (str "y") /\ feeds net 5%N (str "y") /\ drains net 5%N (str "x") | Err _ => False end.
Proof.
  destruct (discover_alpha_plus_part as_it_is 20 pl_log false 0) as [[[net next'] table]|e] eqn:E; vm_compute in E; [|discriminate]. injection E as <- <- <-.
  unfold feeds, drains. cbn [n_trans]. repeat split.
  - eexists. split; [right; right; left; reflexivity|]. split; [reflexivity|]. cbn. tauto.
  - eexists. split; [right; right; right; left; reflexivity|]. split; [reflexivity|]. cbn. tauto.
  - eexists. split; [right; right; right; left; reflexivity|]. split; [reflexivity|]. cbn. tauto.
  - eexists. split; [right; right; left; reflexivity|]. split; [reflexivity|]. cbn. tauto.
Qed.

(** For names without commas and braces: the transition of a name which follows itself is at the place for the names before
    and after it if these are a maximal pair; else it can never fire, so that no trace with the name is replayed. *)
Theorem C64_loop_alive : forall ord, any_order ord -> forall log fuel plus_plus next net next' table,
  discover_alpha_plus_part ord fuel log plus_plus next = Ok ((net, next'), table) -> (forall t c, In t log -> In c t -> plain_name c) ->
  exists loops base, loops_of log loops /\ plus_net log loops base /\ with_loops log loops base net /\
  forall c x, next_to log c c -> around log c x -> maximal (plus_causal log loops) (unrelated log (Some loops)) (as_left x) (as_right x) ->
  exists t place, In t (n_trans net) /\ tr_name t = c /\ map arc_place (tr_in t) = [place] /\ map arc_place (tr_out t) = [place] /\
    In place (dkeys (n_places base)) /\ stands_for base place (as_left x) (as_right x).
Proof.
  intros ord O log fuel pp next net next' table E P. destruct (plus_result_proof ord log O fuel pp next net next' table E) as (_ & _ & loops & base & L & A & W & _). exists loops, base. split; [exact L|]. split; [exact A|]. split; [exact W|].
  intros c x Hc X M. exact (loop_alive log loops base net L A W P c x Hc X M).
Qed.
Print Assumptions C64_loop_alive.
Theorem C64_loop_dead : forall ord, any_order ord -> forall log fuel plus_plus next net next' table,
  discover_alpha_plus_part ord fuel log plus_plus next = Ok ((net, next'), table) -> (forall t c, In t log -> In c t -> plain_name c) ->
  exists loops, loops_of log loops /\
  forall c x, next_to log c c -> around log c x -> ~ maximal (plus_causal log loops) (unrelated log (Some loops)) (as_left x) (as_right x) ->
  exists init, n_initial net = Some init /\ forall w ids M, run net (tokens init) w ids M -> ~ In c w.
Proof.
  intros ord O log fuel pp next net next' table E P. destruct (plus_result_proof ord log O fuel pp next net next' table E) as (_ & _ & loops & base & L & A & W & _). exists loops. split; [exact L|].
  intros c x Hc X M. exact (loop_dead log loops base net L A W P c x Hc X M).
Qed.
Print Assumptions C64_loop_dead.
(** [b] is at the place from a to c in the first log; in the second one the place goes from a to c and d. *)
Example C64_loop_case : match discover_alpha_plus_part as_it_is 20 [[str "a"; str "b"; str "b"; str "c"]; [str "a"; str "c"]] false 0 with
    Ok (net, _, _) => replay_petri_net 20 [[str "a"; str "b"; str "b"; str "b"; str "c"]] net | Err e => Err e end = Ok (Some [Some (mkState [(7%N, 1)] [0; 9; 9; 9; 1]%N)]) /\
  match discover_alpha_plus_part as_it_is 20 [[str "a"; str "b"; str "b"; str "c"]; [str "a"; str "d"]] false 0 with
    Ok (net, _, _) => replay_petri_net 20 [[str "a"; str "b"; str "b"; str "c"]; [str "a"; str "d"]] net | Err e => Err e end = Ok (Some [None; Some (mkState [(9%N, 1)] [0; 2]%N)]).
Proof. vm_compute. split; reflexivity. Qed.
(** So the log itself need not be replayed, even if the names of loops are inside of traces. *)
Theorem C64_replays_own_log_refuted : exists log net next' table, long_enough log /\ starts_well log /\
  discover_alpha_plus_part as_it_is 20 log false 0 = Ok ((net, next'), table) /\ exists states, replay_petri_net 20 log net = Ok (Some states) /\ In None states.
Proof.
  exists [[str "a"; str "b"; str "b"; str "c"]; [str "a"; str "d"]].
  destruct (discover_alpha_plus_part as_it_is 20 [[str "a"; str "b"; str "b"; str "c"]; [str "a"; str "d"]] false 0) as [[[net next'] table]|e] eqn:E; [|vm_compute in E; discriminate].
  exists net, next', table. destruct (plus_result_proof as_it_is _ as_it_is_any 20 false 0%N net next' table E) as (H1 & H2 & _). split; [exact H1|]. split; [exact H2|]. split; [reflexivity|].
  vm_compute in E. injection E as <- _ _. eexists. split; [vm_compute; reflexivity|]. left. reflexivity.
Qed.
Print Assumptions C64_replays_own_log_refuted.
(** With commas in names the place found by its name can be another one: [c] is after a and b, the place is after "a,b". *)
Theorem C64_place_of_loop_refuted : exists log net next' table t place x,
  discover_alpha_plus_part as_it_is 20 log false 0 = Ok ((net, next'), table) /\ In t (n_trans net) /\ tr_name t = str "c" /\ next_to log (str "c") (str "c") /\
  In place (map arc_place (tr_in t)) /\ In (place, x) table /\ as_left x = [str "a,b"] /\ next_to log (str "a") (str "c") /\ next_to log (str "b") (str "c") /\ ~ next_to log (str "a,b") (str "c").
Proof.
  set (log := [[str "a,b"; str "d"]; [str "a"; str "c"; str "c"; str "d"]; [str "b"; str "c"; str "c"; str "d"]; [str "d"; str "a"]; [str "d"; str "b"]]). exists log.
  destruct (discover_alpha_plus_part as_it_is 20 log false 0) as [[[net next'] table]|e] eqn:E; [|vm_compute in E; discriminate]. exists net, next', table.
  vm_compute in E. injection E as <- _ <-. eexists (mkTrans 16 (str "c") false _ _), 4%N, (mkASet [str "a,b"] [str "d"]). split; [reflexivity|]. cbn [n_trans].
  split; [right; right; right; right; left; reflexivity|]. split; [reflexivity|]. split; [exists [str "a"], [str "d"]; right; left; reflexivity|]. split; [left; reflexivity|].
  split; [left; reflexivity|]. split; [reflexivity|]. split; [exists [], [str "c"; str "d"]; right; left; reflexivity|]. split; [exists [], [str "c"; str "d"]; right; right; left; reflexivity|].
  unfold next_to. rewrite <- follows_split. intros H. vm_compute in H. repeat (destruct H as [H|H]; [discriminate|]). destruct H.
Qed.
Print Assumptions C64_place_of_loop_refuted.
(** Any log can be replayed on the net: replay ends without a panic and says for each trace whether there is a run. *)
Theorem C64_replay : forall ord, any_order ord -> forall log fuel plus_plus next net next' table,
  discover_alpha_plus_part ord fuel log plus_plus next = Ok ((net, next'), table) ->
  ids_distinct net /\ exists init, n_initial net = Some init /\ forall log',
  exists n states, (forall fuel', n <= fuel' -> replay_petri_net fuel' log' net = Ok (Some states)) /\ Forall2 (replay_right net init) log' states.
Proof.
  intros ord O log fuel pp next net next' table H. destruct (plus_result_proof ord log O fuel pp next net next' table H) as (_ & _ & loops & base & L & A & W & _).
  destruct (plus_replayable log loops base net A W) as (H1 & H2 & H3 & start & H4 & _ & H6).
  split; [exact H2|]. exists [(start, 1)]. split; [exact H4|]. intros log'. destruct (replay_ends_proof net [(start, 1)] log' H1 H4 H6 H3) as (n & states & E). exists n, states. split; [exact E|].
  destruct (replay_proof net [(start, 1)] n log' _ H1 H4 H6 (E n (le_n n))) as (states' & E' & F). congruence.
Qed.
Print Assumptions C64_replay.
