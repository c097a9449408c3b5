(** C61: replay of a log on a Petri net of the backend and the annotations made from it. *)
From Coq Require Import QArith Permutation.
From Verif Require Import Py PyFacts InfoModel ReplayModel ReplaySpec ReplayProofs.
Open Scope nat_scope.

(** A net with a choice and a silent way back: 1 -a-> 2, 2 -b-> 3, 2 -silent-> 1, 2 -c-> 3. *)
Definition ta : ptrans := mkTrans 11 (str "a") false [mkArc 21 1] [mkArc 22 2].
Definition tb : ptrans := mkTrans 12 (str "b") false [mkArc 23 2] [mkArc 24 3].
Definition ts : ptrans := mkTrans 13 (str "silent") true [mkArc 25 2] [mkArc 26 1].
Definition tc : ptrans := mkTrans 14 (str "c") false [mkArc 27 2] [mkArc 28 3].
Definition ex_places : dict N pystr := [(1%N, str "p1"); (2%N, str "p2"); (3%N, str "p3")].
Definition ex_net : pnet := mkNet ex_places [ta; tb; ts; tc] (Some [(1%N, 1)]) (Some [(3%N, 1)]).
Definition ex_log : names_log := [[str "a"; str "a"; str "b"]; [str "b"]; [str "a"; str "c"]].
Lemma ex_simple : simple_net ex_net.
Proof.
  intros t Ht. cbn in Ht. destruct Ht as [<-|[<-|[<-|[<-|[]]]]]; cbn; (constructor; [intros [] | constructor]).
Qed.
Lemma ex_proper : proper [(1%N, 1)].
Proof. split; [constructor; [intros [] | constructor] |]. intros p n [E|[]]. injection E as <- <-. auto. Qed.
Lemma ex_distinct : ids_distinct ex_net.
Proof. split; (vm_compute; repeat (constructor; [cbn; intuition discriminate |]); constructor). Qed.
Definition ex_weight (p : N) : nat := if N.eqb p 2 then 1 else 0.
Lemma ex_sinks : silent_sinks ex_net ex_weight.
Proof. intros t Ht Hs. cbn in Ht. destruct Ht as [<-|[<-|[<-|[<-|[]]]]]; try discriminate Hs. vm_compute. auto. Qed.

(** Replay tells the truth about every trace: a state it gives was reached by a run of the net which spells the trace,
    and if it gives none no run of the net spells the trace, silent transitions anywhere included. *)
Theorem C61_replay_decides : forall net init fuel log r,
  simple_net net -> n_initial net = Some init -> proper init ->
  replay_petri_net fuel log net = Ok r ->
  exists states, r = Some states /\ Forall2 (replay_right net init) log states.
Proof. exact replay_proof. Qed.
Print Assumptions C61_replay_decides.
Example C61_replay_decides_case :
  replay_petri_net 20 ex_log ex_net = Ok (Some [Some (mkState [(3%N, 1)] [11; 13; 11; 12]%N); None; Some (mkState [(3%N, 1)] [11; 14]%N)]).
Proof. vm_compute. reflexivity. Qed.

(** Such a replay never panics, ... *)
Theorem C61_replay_never_panics : forall net init fuel log e,
  simple_net net -> n_initial net = Some init -> proper init -> replay_petri_net fuel log net = Err e -> e = Diverges.
Proof. exact replay_no_panic_proof. Qed.
Print Assumptions C61_replay_never_panics.
(** ... ends, whatever the log, when silent transitions cannot fire for ever, ... *)
Theorem C61_replay_ends : forall net init log,
  simple_net net -> n_initial net = Some init -> proper init -> silent_ends net ->
  exists n states, forall fuel, n <= fuel -> replay_petri_net fuel log net = Ok (Some states).
Proof. exact replay_ends_proof. Qed.
Print Assumptions C61_replay_ends.
(** ... for which weights of places that every silent transition lowers are enough. *)
Theorem C61_silent_sinks_end : forall net weight, silent_sinks net weight -> silent_ends net.
Proof. intros net weight. exact (silent_sinks_proof weight net). Qed.
Print Assumptions C61_silent_sinks_end.
Example C61_replay_ends_case : forall log, exists n states, forall fuel, n <= fuel -> replay_petri_net fuel log ex_net = Ok (Some states).
Proof.
  intros log. apply (C61_replay_ends ex_net [(1%N, 1)] log ex_simple eq_refl ex_proper).
  apply (C61_silent_sinks_end ex_net ex_weight), ex_sinks.
Qed.
(** Once replay has ended more time would have changed nothing. *)
Theorem C61_replay_settled : forall net fuel more log r,
  replay_petri_net fuel log net = Ok r -> replay_petri_net (fuel + more) log net = Ok r.
Proof. exact replay_more_proof. Qed.
Print Assumptions C61_replay_settled.

(** Which traces are replayed does not depend on the order of the transitions in the HashMap. *)
Theorem C61_order_does_not_matter : forall net net' init fuel fuel' log states states',
  simple_net net -> n_initial net = Some init -> proper init -> same_net net net' ->
  replay_petri_net fuel log net = Ok (Some states) -> replay_petri_net fuel' log net' = Ok (Some states') ->
  map replayed states = map replayed states'.
Proof. exact replay_order_proof. Qed.
Print Assumptions C61_order_does_not_matter.
Example C61_order_case : exists states, replay_petri_net 20 ex_log (mkNet ex_places [ts; tc; tb; ta] (Some [(1%N, 1)]) None) = Ok (Some states) /\
  map replayed states = [true; false; true].
Proof. eexists. split; [vm_compute; reflexivity | reflexivity]. Qed.

(** The count of an arc is how often its transition was fired over all replayed traces; an arc never used, and only
    such an arc, has no count.  With the flag one trace that cannot be replayed leaves no counts at all. *)
Theorem C61_counts : forall net init fuel log states b,
  simple_net net -> ids_distinct net -> n_initial net = Some init -> proper init ->
  replay_petri_net fuel log net = Ok (Some states) ->
  exists d, annotate_with_counts fuel log net b = Ok (if b && negb (forallb replayed states) then None else Some d) /\
    NoDup (dkeys d) /\
    (forall t a, In t (n_trans net) -> In a (arcs_of t) ->
       dget N.eq_dec d a = if occurs_n (tr_id t) (all_fired states) =? 0 then None else Some (occurs_n (tr_id t) (all_fired states))) /\
    (forall a, In a (dkeys d) -> exists t, In t (n_trans net) /\ In a (arcs_of t)).
Proof. exact counts_proof. Qed.
Print Assumptions C61_counts.
Example C61_counts_case :
  annotate_with_counts 20 ex_log ex_net false = Ok (Some [(21%N, 3); (22%N, 3); (25%N, 1); (26%N, 1); (23%N, 1); (24%N, 1); (27%N, 1); (28%N, 1)]) /\
  annotate_with_counts 20 ex_log ex_net true = Ok None.
Proof. vm_compute. split; reflexivity. Qed.
(** Without an initial marking a log with a trace cannot be annotated. *)
Theorem C61_no_marking_no_annotation : forall net fuel log b, n_initial net = None -> log <> [] ->
  annotate_part (annotate_with_counts fuel log net b) = Err UserError.
Proof. intros net fuel log b H1 H2. rewrite counts_no_marking_proof by assumption. reflexivity. Qed.
Print Assumptions C61_no_marking_no_annotation.

(** Frequencies are the shares of the counts and add up to one. *)
Theorem C61_frequencies : forall net fuel log b d, annotate_with_counts fuel log net b = Ok (Some d) ->
  exists fr, annotate_with_frequencies fuel log net b = Ok (Some fr) /\ dkeys fr = dkeys d /\
    (forall a n, In (a, n) d -> exists q, In (a, q) fr /\ (q == inject_Z (Z.of_nat n) / inject_Z (Z.of_nat (list_sum (dvalues d))))%Q) /\
    (0 < list_sum (dvalues d) -> (qsum (dvalues fr) == 1)%Q).
Proof. exact frequencies_proof. Qed.
Print Assumptions C61_frequencies.
(** Frequencies by trace are the counts over the number of all traces, replayed or not. *)
Theorem C61_trace_frequencies : forall net fuel log b d, annotate_with_counts fuel log net b = Ok (Some d) ->
  exists fr, annotate_with_trace_frequency fuel log net b = Ok (Some fr) /\ dkeys fr = dkeys d /\
    (forall a n, In (a, n) d -> exists q, In (a, q) fr /\ (q == inject_Z (Z.of_nat n) / inject_Z (Z.of_nat (length log)))%Q).
Proof. exact trace_frequency_proof. Qed.
Print Assumptions C61_trace_frequencies.
Example C61_frequencies_case : exists fr, annotate_with_frequencies 20 ex_log ex_net false = Ok (Some fr) /\
  dget N.eq_dec fr 21%N = Some (3 # 12)%Q /\ (qsum (dvalues fr) == 1)%Q.
Proof. eexists. split; [vm_compute; reflexivity | split; vm_compute; reflexivity]. Qed.

(** Making an initial marking: one new place with one token in front of the transitions named like first events, one new
    place behind those named like last events; nothing else changes. *)
Theorem C61_ensure_initial_marking : forall order log net next, (forall l, Permutation (order l) l) ->
  NoDup (map tr_id (n_trans net)) -> NoDup (map tr_name (n_trans net)) -> ~ In [] log ->
  exists net' next', ensure_initial_marking order log net next = Ok (net', next') /\
    n_initial net' = Some [(next, 1)] /\ n_final net' = n_final net /\
    n_places net' = dset N.eq_dec (dset N.eq_dec (n_places net) next (str "Start")) (N.succ next) (str "End") /\
    Forall2 (ensured log next (N.succ next)) (n_trans net) (n_trans net').
Proof. exact ensure_proof. Qed.
Print Assumptions C61_ensure_initial_marking.
(** An empty trace in the log is a panic. *)
Theorem C61_ensure_empty_trace : forall order log net next, In [] log -> ensure_initial_marking order log net next = Err AssertionErr.
Proof. exact ensure_empty_proof. Qed.
Print Assumptions C61_ensure_empty_trace.
(** A transition can fire first afterwards only if nothing led to it before. *)
Theorem C61_ensured_start : forall log start stop t t', ensured log start stop t t' -> ~ In start (map arc_place (tr_in t)) ->
  (enabled (tokens [(start, 1)]) t' <-> tr_in t = []).
Proof. exact ensured_enabled. Qed.
Print Assumptions C61_ensured_start.

(** a and b following one another in a loop. *)
Definition la : ptrans := mkTrans 11 (str "a") false [mkArc 21 1] [mkArc 22 2].
Definition lb : ptrans := mkTrans 12 (str "b") false [mkArc 23 2] [mkArc 24 1].
Definition loop_net : pnet := mkNet [(1%N, str "p1"); (2%N, str "p2")] [la; lb] None None.
Example C61_ensure_case : exists net', ensure_initial_marking (fun l => l) [[str "a"; str "b"; str "a"]] loop_net 30 = Ok (net', 34%N) /\
  map (fun t => (tr_in t, tr_out t)) (n_trans net') =
  [([mkArc 21 1; mkArc 32 30], [mkArc 22 2; mkArc 33 31]); ([mkArc 23 2], [mkArc 24 1])]%N.
Proof. eexists. split; vm_compute; reflexivity. Qed.
(** So the log a net was made from need not be replayable after making an initial marking. *)
Theorem C61_ensured_log_replayable_refuted : exists log net net' next',
  ensure_initial_marking (fun l => l) log net 30 = Ok (net', next') /\
  (forall tr, In tr log -> exists m ids M, run net (tokens m) tr ids M) /\
  replay_petri_net 20 log net' = Ok (Some [None]).
Proof.
  exists [[str "a"; str "b"]], loop_net. eexists _, _. split; [vm_compute; reflexivity |]. split; [| vm_compute; reflexivity].
  intros tr [<-|[]]. exists [(1%N, 1)].
  assert (S : simple_net loop_net) by (intros t [<-|[<-|[]]]; cbn; (constructor; [intros [] | constructor])).
  set (net := mkNet (n_places loop_net) (n_trans loop_net) (Some [(1%N, 1)]) None).
  assert (R : exists s, replay_petri_net 20 [[str "a"; str "b"]] net = Ok (Some [Some s])) by (eexists; vm_compute; reflexivity).
  destruct R as [s R]. apply (C61_replay_decides net [(1%N, 1)] 20 _ _ S eq_refl ex_proper) in R as (st & E & F).
  injection E as <-. inversion F as [| x y xs ys Hx _]; subst. cbn in Hx.
  exists (rs_fired s), (tokens (rs_marking s)). eapply run_same; [| exact Hx]. intros t Ht. exact Ht.
Qed.
Print Assumptions C61_ensured_log_replayable_refuted.

(** Two arcs from one place with one token: a panic instead of a transition that cannot fire. *)
Theorem C61_any_net_replays_refuted : exists net log, (forall fuel, replay_petri_net (S fuel) log net = Err AssertionErr) /\
  forall t, In t (n_trans net) -> ~ enabled (tokens [(1%N, 1)]) t.
Proof.
  exists (mkNet [] [mkTrans 11 (str "a") false [mkArc 21 1; mkArc 22 1] []] (Some [(1%N, 1)]) None), [[str "a"]].
  split; [intros fuel; vm_compute; reflexivity |]. intros t [<-|[]] H. specialize (H 1%N). vm_compute in H. inversion H. inversion H1.
Qed.
Print Assumptions C61_any_net_replays_refuted.
(** A silent transition that can fire again and again keeps replay from ever ending, although the answer is clear. *)
Theorem C61_replay_always_ends_refuted : exists net log, simple_net net /\ (forall fuel, replay_petri_net fuel log net = Err Diverges) /\
  forall init tr ids M, n_initial net = Some init -> In tr log -> ~ run net (tokens init) tr ids M.
Proof.
  set (net := mkNet [] [mkTrans 11 (str "silent") true [mkArc 21 1] [mkArc 22 1]] (Some [(1%N, 1)]) None).
  exists net, [[str "x"]]. split; [intros t [<-|[]]; cbn; constructor; [intros [] | constructor] |]. split.
  - assert (G : forall fuel fired, replay_loop fuel net [str "x"] [(0, mkState [(1%N, 1)] fired)] = Err Diverges).
    { induction fuel as [|fuel IH]; intros fired; [reflexivity |]. apply (IH (fired ++ [11%N])). }
    intros fuel. pose proof (G fuel []) as X. unfold replay_petri_net. cbn [n_initial net mapM].
    change (rstate_new [(1%N, 1)]) with (mkState [(1%N, 1)] []). rewrite X. reflexivity.
  - intros init tr ids M _ [<-|[]] H. remember [str "x"] as w eqn:Ew.
    induction H as [| M t M1 w ids M2 Ht Hs Hf Hr IH | M t M1 w ids M2 Ht Hs Hf Hr IH]; [discriminate | | apply IH; exact Ew].
    destruct Ht as [<-|[]]. discriminate Hs.
Qed.
Print Assumptions C61_replay_always_ends_refuted.
(** The final marking plays no part: a trace that stops anywhere counts as replayed. *)
Theorem C61_replayed_ends_finally_refuted : exists net log s fin p,
  replay_petri_net 20 log net = Ok (Some [Some s]) /\ n_final net = Some fin /\ tokens (rs_marking s) p <> tokens fin p.
Proof.
  exists ex_net, [[str "a"]], (mkState [(2%N, 1)] [11%N]), [(3%N, 1)], 3%N.
  split; [vm_compute; reflexivity |]. split; [reflexivity | vm_compute; discriminate].
Qed.
Print Assumptions C61_replayed_ends_finally_refuted.
(** The counts, unlike what is replayed, do depend on the order in the HashMap when two transitions share a name. *)
Theorem C61_counts_order_refuted : exists net net' log d d', same_net net net' /\ simple_net net /\
  annotate_with_counts 20 log net true = Ok (Some d) /\ annotate_with_counts 20 log net' true = Ok (Some d') /\
  dget N.eq_dec d 22%N <> dget N.eq_dec d' 22%N.
Proof.
  set (u := mkTrans 11 (str "a") false [mkArc 21 1] [mkArc 22 2]). set (v := mkTrans 12 (str "a") false [mkArc 23 1] [mkArc 24 3]).
  exists (mkNet ex_places [u; v] (Some [(1%N, 1)]) None), (mkNet ex_places [v; u] (Some [(1%N, 1)]) None), [[str "a"]]. eexists _, _.
  split; [split; [apply perm_swap | reflexivity] |].
  split; [intros t [<-|[<-|[]]]; cbn; (constructor; [intros [] | constructor]) |].
  split; [vm_compute; reflexivity |]. split; [vm_compute; reflexivity |]. vm_compute. discriminate.
Qed.
Print Assumptions C61_counts_order_refuted.
(** A frequency by trace can be more than one. *)
Theorem C61_trace_frequency_at_most_one_refuted : exists net log fr a q,
  annotate_with_trace_frequency 20 log net true = Ok (Some fr) /\ dget N.eq_dec fr a = Some q /\ (1 < q)%Q.
Proof.
  exists ex_net, [[str "a"; str "a"; str "b"]]. eexists _, 21%N, _. split; [vm_compute; reflexivity |]. split; vm_compute; reflexivity.
Qed.
Print Assumptions C61_trace_frequency_at_most_one_refuted.
