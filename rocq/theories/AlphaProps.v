(** C63: the alpha algorithm gives a place for each maximal pair of sets and nothing else. *)
From Coq Require Import Permutation.
From Verif Require Import Py PyFacts InfoModel InfoSpec ReplayModel ReplaySpec ReplayProofs RInfoModel RInfoSpec RInfoProofs AlphaModel AlphaSpec AlphaProofs AlphaProofs2 AlphaProofs3 AlphaProofs4 AlphaProofs5 AlphaProofs6.

Definition as_it_is : nat -> forall A : Type, list A -> list A := fun _ _ l => l.
Lemma as_it_is_any : any_order as_it_is.
Proof. intros k A l. reflexivity. Qed.
Definition turned : nat -> forall A : Type, list A -> list A := fun _ _ l => rev l.
Lemma turned_any : any_order turned.
Proof. intros k A l. symmetry. apply Permutation_rev. Qed.
Definition al_log : list (list pystr) :=
  [[str "a"; str "b"; str "c"; str "d"]; [str "a"; str "c"; str "b"; str "d"]; [str "a"; str "e"; str "d"]].
(** Names and the places before and after each transition. *)
Definition shape (r : result (pnet * N * dict N aset)) : option (list (pystr * list N * list N)) :=
  match r with Ok (net, _, _) => Some (map (fun t => (tr_name t, map arc_place (tr_in t), map arc_place (tr_out t))) (n_trans net)) | Err _ => None end.

(** For any log, in whatever order hash tables are walked over, the part ends without a panic and gives the net which the
    algorithm is meant to give. *)
Theorem C63_net : forall ord, any_order ord -> forall log next, exists fuel0 net next' table,
  (forall fuel, fuel0 <= fuel -> discover_alpha_part ord fuel log next = Ok ((net, next'), table)) /\
  alpha_net (causal log None) (unrelated log None) (fun c => exists t, In t log /\ In c t) (begins_trace log) (ends_trace log) net /\
  (forall i, In i (all_ids net) -> (i < next')%N) /\
  (forall place x, In (place, x) table <-> In (place, as_string x) (n_places net) /\ tidy x /\ maximal (causal log None) (unrelated log None) (as_left x) (as_right x) /\ stands_for net place (as_left x) (as_right x)).
Proof. exact alpha_net_proof. Qed.
Print Assumptions C63_net.
Example C63_net_case : shape (discover_alpha_part as_it_is 20 al_log 0) =
  Some [(str "a", [21], [5; 9]); (str "b", [5], [13]); (str "c", [9], [17]); (str "d", [13; 17], [23]); (str "e", [5; 9], [13; 17])]%N /\
  match discover_alpha_part turned 20 al_log 0 with Ok (net, _, _) => map snd (n_places net) | Err _ => [] end =
    [str "({c,e}, {d})"; str "({b,e}, {d})"; str "({a}, {c,e})"; str "({a}, {b,e})"; str "StartPlace"; str "EndPlace"].
Proof. vm_compute. split; reflexivity. Qed.

(** Between two classes there is a place iff one directly follows the other and not conversely, and neither follows itself. *)
Theorem C63_connected : forall log net,
  alpha_net (causal log None) (unrelated log None) (fun c => exists t, In t log /\ In c t) (begins_trace log) (ends_trace log) net ->
  forall a b, (exists place, feeds net place a /\ drains net place b) <->
    (causal log None a b /\ unrelated log None a a /\ unrelated log None b b).
Proof. exact connected_proof. Qed.
Print Assumptions C63_connected.
Theorem C63_part_connected : forall ord, any_order ord -> forall log next fuel net next' table,
  discover_alpha_part ord fuel log next = Ok ((net, next'), table) ->
  forall a b, (exists place, feeds net place a /\ drains net place b) <->
    ((exists l1 l2, In (l1 ++ a :: b :: l2) log) /\ (forall l1 l2, ~ In (l1 ++ b :: a :: l2) log) /\
     (forall l1 l2, ~ In (l1 ++ a :: a :: l2) log) /\ (forall l1 l2, ~ In (l1 ++ b :: b :: l2) log)).
Proof.
  intros ord O log next fuel net next' table H a b. destruct (alpha_result ord O log next fuel net next' table H) as (A & _).
  rewrite (connected_proof log net A). unfold causal, unrelated. rewrite !follows_split. split.
  - intros ((H1 & H2) & (H3 & _) & (H4 & _)). split; [exact H1|]. split; [intros l1 l2 X; apply H2; eauto|]. split; [intros l1 l2 X; apply H3; eauto|intros l1 l2 X; apply H4; eauto].
  - intros (H1 & H2 & H3 & H4). split; [split; [exact H1|intros (l1 & l2 & X); eapply H2, X]|]. split; split; intros (l1 & l2 & X); [eapply H3, X|eapply H3, X|eapply H4, X|eapply H4, X].
Qed.
Print Assumptions C63_part_connected.
Example C63_connected_case : let net := match discover_alpha_part as_it_is 20 al_log 0 with Ok (net, _, _) => net | Err _ => empty_net end in
  (exists place, feeds net place (str "a") /\ drains net place (str "b")) /\ ~ (exists place, feeds net place (str "b") /\ drains net place (str "c")).
Proof.
  destruct (discover_alpha_part as_it_is 20 al_log 0) as [[[net next'] table]|e] eqn:E; [|vm_compute in E; discriminate]. cbn zeta.
  pose proof (C63_part_connected as_it_is as_it_is_any al_log 0%N 20 net next' table E) as H. split.
  - apply H. split; [exists [], [str "c"; str "d"]; left; reflexivity|].
    assert (K : forall x y, existsb (fun t => existsb (fun xy => if pair_eq_dec xy (x, y) then true else false) (neighbours t)) al_log = false -> forall l1 l2, ~ In (l1 ++ x :: y :: l2) al_log).
    { intros x y Hf l1 l2 Hin. assert (X : follows al_log None x y) by (apply follows_split; eauto). unfold follows, steps in X. apply in_flat_map in X. destruct X as (t & Ht & X).
      assert (Y : existsb (fun t => existsb (fun xy => if pair_eq_dec xy (x, y) then true else false) (neighbours t)) al_log = true); [|congruence].
      apply existsb_exists. exists t. split; [exact Ht|]. apply existsb_exists. exists (x, y). split; [|destruct (pair_eq_dec (x, y) (x, y)); congruence].
      replace (neighbours t) with (neighbours (walk false (kept None t))); [exact X|]. f_equal. unfold al_log in Ht. cbn in Ht. destruct Ht as [<-|[<-|[<-|[]]]]; reflexivity. }
    split; [apply K; vm_compute; reflexivity|]. split; apply K; vm_compute; reflexivity.
  - intros X. apply H in X. destruct X as (_ & X & _). apply (X [str "a"] [str "d"]). right. left. reflexivity.
Qed.

(** The order of hash tables does not matter: the same pairs of sets have a place, and the same names a transition. *)
Theorem C63_order : forall ord ord', any_order ord -> any_order ord' -> forall log next next0 fuel fuel' net net' n1 n2 t1 t2,
  discover_alpha_part ord fuel log next = Ok ((net, n1), t1) -> discover_alpha_part ord' fuel' log next0 = Ok ((net', n2), t2) ->
  (forall A B, (exists place, In place (dkeys (n_places net)) /\ stands_for net place A B) <-> (exists place, In place (dkeys (n_places net')) /\ stands_for net' place A B)) /\
  Permutation (map tr_name (n_trans net)) (map tr_name (n_trans net')).
Proof.
  intros ord ord' O O' log next next0 fuel fuel' net net' n1 n2 t1 t2 H H'. destruct (alpha_result ord O _ _ _ _ _ _ H) as (A & _). destruct (alpha_result ord' O' _ _ _ _ _ _ H') as (A' & _).
  split; [intros S T; split; apply (order_proof log); assumption|]. apply NoDup_Permutation; [apply (an_names _ _ _ _ _ _ A)|apply (an_names _ _ _ _ _ _ A')|].
  intros c. rewrite (an_classes _ _ _ _ _ _ A), (an_classes _ _ _ _ _ _ A'). reflexivity.
Qed.
Print Assumptions C63_order.

(** What the part gives is always the net of the algorithm, with whatever number of steps it ended. *)
Theorem C63_result : forall ord, any_order ord -> forall log next fuel r, discover_alpha_part ord fuel log next = r ->
  r = Err Diverges \/ exists net next' table, r = Ok ((net, next'), table) /\
    alpha_net (causal log None) (unrelated log None) (fun c => exists t, In t log /\ In c t) (begins_trace log) (ends_trace log) net.
Proof. exact alpha_any_fuel. Qed.
Print Assumptions C63_result.

(** Any log can be replayed on the net: replay ends without a panic and says for each trace whether there is a run. *)
Theorem C63_replay : forall ord, any_order ord -> forall log next fuel net next' table,
  discover_alpha_part ord fuel log next = Ok ((net, next'), table) ->
  ids_distinct net /\ exists init, n_initial net = Some init /\ forall log',
  exists n states, (forall fuel', n <= fuel' -> replay_petri_net fuel' log' net = Ok (Some states)) /\ Forall2 (replay_right net init) log' states.
Proof.
  intros ord O log next fuel net next' table H. destruct (alpha_result ord O _ _ _ _ _ _ H) as (A & _). destruct (alpha_replayable log net A) as (H1 & H2 & H3 & start & stop & H4 & H5 & H6).
  split; [exact H2|]. exists [(start, 1)]. split; [exact H4|]. intros log'. destruct (replay_ends_proof net [(start, 1)] log' H1 H4 H6 H3) as (n & states & E). exists n, states. split; [exact E|].
  destruct (replay_proof net [(start, 1)] n log' _ H1 H4 H6 (E n (le_n n))) as (states' & E' & F). congruence.
Qed.
Print Assumptions C63_replay.
(** A log which repeats one trace of different names is replayed, from the start place to the end place. *)
Theorem C63_sequence : forall ord, any_order ord -> forall log tr next fuel net next' table,
  (forall t, In t log -> t = tr) -> In tr log -> NoDup tr -> tr <> [] ->
  discover_alpha_part ord fuel log next = Ok ((net, next'), table) ->
  exists start stop ids, n_initial net = Some [(start, 1)] /\ n_final net = Some [(stop, 1)] /\ run net (tokens [(start, 1)]) tr ids (tokens [(stop, 1)]).
Proof.
  intros ord O log tr next fuel net next' table H1 H2 H3 H4 H. destruct (alpha_result ord O _ _ _ _ _ _ H) as (A & _). exact (sequence_proof log tr net H1 H2 H3 H4 A).
Qed.
Print Assumptions C63_sequence.
Example C63_sequence_case : match discover_alpha_part turned 20 [[str "x"; str "y"; str "z"]] 0 with
  Ok (net, _, _) => replay_petri_net 20 [[str "x"; str "y"; str "z"]; [str "x"; str "z"]] net | Err e => Err e end =
  Ok (Some [Some (mkState [(11%N, 1)] [2; 1; 0]%N); None]).
Proof. vm_compute. reflexivity. Qed.
(** In general the log itself is not replayed. *)
Theorem C63_replays_own_log_refuted : exists log net next' table,
  discover_alpha_part as_it_is 20 log 0 = Ok ((net, next'), table) /\ replay_petri_net 20 log net = Ok (Some [None]).
Proof. exists [[str "a"; str "a"]]. eexists _, _, _. split; vm_compute; reflexivity. Qed.
Print Assumptions C63_replays_own_log_refuted.

(** Sets are compared by hashes which do not tell the two sides apart: the sets of the algorithm they do tell apart, ... *)
Theorem C63_equality : forall p, (forall a b, ap_causal p a b = true -> ap_unrelated p a b = false) -> forall x y,
  tidy x -> tidy y ->
  fits (fun a b => ap_causal p a b = true) (fun a b => ap_unrelated p a b = true) (as_left x) (as_right x) ->
  fits (fun a b => ap_causal p a b = true) (fun a b => ap_unrelated p a b = true) (as_left y) (as_right y) ->
  (as_eqb x y = true <-> x = y).
Proof.
  intros p H x y Tx Ty Fx Fy. apply (as_eqb_spec p); [|split; assumption|split; assumption]. intros a b H1 H2. rewrite (H a b H1) in H2. discriminate.
Qed.
Print Assumptions C63_equality.
(** ... not others. *)
Theorem C63_equality_refuted : exists x y, tidy x /\ tidy y /\ x <> y /\ as_eqb x y = true.
Proof.
  exists (mkASet [str "a"] [str "b"; str "c"]), (mkASet [str "a"; str "b"] [str "c"]).
  split; [intros []; repeat constructor; discriminate|]. split; [intros []; repeat constructor; discriminate|]. split; [discriminate|vm_compute; reflexivity].
Qed.
Print Assumptions C63_equality_refuted.
