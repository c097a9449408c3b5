(** C62: what the backend counts in a log and the directly follows graph it draws from the counts. *)
From Coq Require Import Permutation.
From Verif Require Import Py PyFacts InfoModel InfoSpec XesModel ReplayModel RInfoModel RInfoSpec RInfoProofs.

Definition r_log : names_log := [[str "a"; str "b"; str "b"; str "c"]; []; [str "c"; str "a"; str "b"]].
Definition as_is : nat -> forall A : Type, list A -> list A := fun _ _ l => l.
Definition backwards : nat -> forall A : Type, list A -> list A := fun _ A l => rev l.
Lemma as_is_any : any_order as_is.
Proof. intros k A l. apply Permutation_refl. Qed.
Lemma backwards_any : any_order backwards.
Proof. intros k A l. apply Permutation_sym, Permutation_rev. Qed.

(** The counts, whatever the order in which tables are walked over. *)
Theorem C62_counts : forall ord, any_order ord -> forall log fake ign,
  let info := r_create_from ord log fake ign in
  (forall n, r_event_count info n = count_occ str_eq_dec (occurrences log ign) n) /\
  (forall k, NoDup (r_all_event_classes ord k info) /\ forall n, In n (r_all_event_classes ord k info) <-> In n (occurrences log ign)) /\
  (forall a b, r_directly_follows_count (ri_dfg info) a b = count_occ pair_eq_dec (steps log ign fake) (a, b)) /\
  (forall a b, r_directly_follows (ri_dfg info) a b = true <-> In (a, b) (steps log ign fake)) /\
  ri_traces_count info = length log /\ ri_events_count info = length (concat log).
Proof. exact counts_proof. Qed.
Print Assumptions C62_counts.

(** Followers, predecessors and single followers. *)
Theorem C62_followers : forall ord, any_order ord -> forall log fake ign,
  let info := r_create_from ord log fake ign in
  (forall a b, match r_followed (ri_dfg info) a with Some m => dget str_eq_dec m b | None => None end
     = positive (count_occ pair_eq_dec (steps log ign fake) (a, b))) /\
  (forall a b, match r_precedes (ri_dfg info) b with Some m => dget str_eq_dec m a | None => None end
     = positive (count_occ pair_eq_dec (steps log ign fake) (a, b))) /\
  (forall a m, r_followed (ri_dfg info) a = Some m \/ r_precedes (ri_dfg info) a = Some m -> NoDup (dkeys m) /\ m <> []) /\
  (forall a, r_single_follower (ri_dfg info) a = true <->
     exists b, In (a, b) (steps log ign fake) /\ forall b', In (a, b') (steps log ign fake) -> b' = b).
Proof. exact followers_proof. Qed.
Print Assumptions C62_followers.

(** The first and last names of the traces. *)
Theorem C62_starts : forall ord log fake ign, let info := r_create_from ord log fake ign in
  NoDup (ri_starts info) /\ NoDup (ri_ends info) /\
  (forall n, In n (ri_starts info) <-> begins_trace log n) /\ (forall n, In n (ri_ends info) <-> ends_trace log n).
Proof. exact starts_proof. Qed.
Print Assumptions C62_starts.

(** The backend and the Python library count alike. *)
Theorem C62_same_as_library : forall ord, any_order ord -> forall log fake ign,
  let info := r_create_from ord log fake ign in let li := create_log_information log ign fake in
  ri_classes info = li_events_count li /\
  (forall a b, entry str_eq_dec (rd_pairs (ri_dfg info)) a b = dget pair_eq_dec (d_pairs (li_dfg li)) (a, b)) /\
  (forall a b, entry str_eq_dec (rd_followed (ri_dfg info)) a b = entry str_eq_dec (d_followed (li_dfg li)) a b) /\
  (forall a, In a (rd_single (ri_dfg info)) <-> In a (d_single (li_dfg li))).
Proof. exact same_proof. Qed.
Print Assumptions C62_same_as_library.

Example C62_case : let info := r_create_from backwards r_log false (Some [str "c"]) in
  r_event_count info (str "b") = 3 /\ r_directly_follows_count (ri_dfg info) (str "a") (str "b") = 2 /\
  r_directly_follows (ri_dfg info) (str "b") (str "c") = false /\ r_single_follower (ri_dfg info) (str "a") = true /\
  r_precedes (ri_dfg info) (str "b") = Some [(str "b", 1); (str "a", 2)] /\ r_all_event_classes backwards 7 info = [str "b"; str "a"].
Proof. vm_compute. repeat split. Qed.

(** The names which are ignored still count as events and may start traces: the number of events is not that of the
    events counted by class and a start class need not be a class. *)
Theorem C62_ignored_refuted : exists log ign, let info := r_create_from as_is log false (Some ign) in
  ri_events_count info <> list_sum (map (r_event_count info) (r_all_event_classes as_is 0 info)) /\
  exists n, In n (ri_starts info) /\ ~ In n (r_all_event_classes as_is 0 info).
Proof.
  exists r_log, [str "a"]. split; [vm_compute; discriminate|]. exists (str "a"). split; [left; reflexivity|].
  vm_compute. intuition discriminate.
Qed.
Print Assumptions C62_ignored_refuted.

(** The graph: one node for each class, one edge for each pair of classes which directly follow each other, with the
    count; it is always made. *)
Theorem C62_graph : forall ord, any_order ord -> forall log ign next,
  let info := r_create_from ord log false ign in
  exists g next', r_construct_dfg ord info next = Ok (g, next') /\
  NoDup (dkeys (rg_nodes g)) /\
  (forall id o, In (id, o) (rg_nodes g) -> exists c, o = Some c) /\
  (forall c, In c (occurrences log ign) <-> exists id, In (id, Some c) (rg_nodes g)) /\
  (forall c id id', In (id, Some c) (rg_nodes g) -> In (id', Some c) (rg_nodes g) -> id = id') /\
  NoDup (map fst (rg_all_edges g)) /\
  (forall x y d, In (x, y, d) (rg_all_edges g) <->
     exists a b, In (x, Some a) (rg_nodes g) /\ In (y, Some b) (rg_nodes g) /\ In (a, b) (steps log ign false) /\
       d = Some (show_int (Z.of_nat (count_occ pair_eq_dec (steps log ign false) (a, b))))).
Proof. exact graph_proof. Qed.
Print Assumptions C62_graph.
Example C62_graph_case : exists g next', r_construct_dfg as_is (r_create_from as_is r_log false None) 5%N = Ok (g, next') /\
  rg_nodes g = [(5%N, Some (str "a")); (6%N, Some (str "b")); (7%N, Some (str "c"))] /\
  rg_all_edges g = [(5%N, 6%N, Some (str "2")); (6%N, 6%N, Some (str "1")); (6%N, 7%N, Some (str "1")); (7%N, 5%N, Some (str "1"))].
Proof. do 2 eexists. vm_compute. repeat split. Qed.
(** With artificial starts and ends counted the graph cannot be made: they are no classes. *)
Theorem C62_fake_graph_refuted : exists log next, r_construct_dfg as_is (r_create_from as_is log true None) next = rpanic.
Proof. exists [[str "a"]], 0%N. reflexivity. Qed.
Print Assumptions C62_fake_graph_refuted.

(** Changing a graph by hand: connecting adds the edge unless it is there or a node is missing, disconnecting takes
    it away, and nothing else changes. *)
Theorem C62_connect : forall g a b d x y,
  entry N.eq_dec (rg_connections (rg_connect g a b d)) x y =
  if N.eqb x a && N.eqb y b && negb (rg_connected g a b) && (dmem N.eq_dec (rg_nodes g) a && dmem N.eq_dec (rg_nodes g) b)
  then Some d else entry N.eq_dec (rg_connections g) x y.
Proof. exact connect_entry. Qed.
Print Assumptions C62_connect.
Theorem C62_disconnect : forall g a b x y, graph_tidy g ->
  entry N.eq_dec (rg_connections (fst (rg_disconnect g a b))) x y = (if N.eqb x a && N.eqb y b then None else entry N.eq_dec (rg_connections g) x y) /\
  snd (rg_disconnect g a b) = rg_connected g a b.
Proof. exact disconnect_entry. Qed.
Print Assumptions C62_disconnect.
Theorem C62_neighbours : forall g x y, graph_tidy g ->
  (In y (rg_outgoing g x) <-> rg_connected g x y = true) /\ (In x (rg_incoming g y) <-> rg_connected g x y = true) /\
  (rg_connected g x y = true <-> exists d, In (x, y, d) (rg_all_edges g)).
Proof.
  intros g x y T. split; [apply outgoing_In|]. split; [apply incoming_In; exact T|]. split.
  - intros H. assert (E : exists d, entry N.eq_dec (rg_connections g) x y = Some d).
    { unfold rg_connected, dmem in H. unfold entry. destruct (dget N.eq_dec (rg_connections g) x) as [c|]; [|discriminate]. destruct (dget N.eq_dec c y); [eauto|discriminate]. }
    destruct E as [d E]. exists d. apply all_edges_In; assumption.
  - intros [d H]. apply all_edges_In in H; [|exact T]. unfold entry in H. unfold rg_connected, dmem. destruct (dget N.eq_dec (rg_connections g) x) as [c|]; [|discriminate]. rewrite H. reflexivity.
Qed.
Print Assumptions C62_neighbours.
(** "All connected nodes" of a node leaves out the nodes with an edge to it and gives every node with an edge to itself. *)
Theorem C62_connected_refuted : exists g x y z, graph_tidy g /\ rg_connected g x y = true /\ ~ In x (rg_all_connected g y) /\
  rg_connected g y z = false /\ rg_connected g z y = false /\ In z (rg_all_connected g y).
Proof.
  exists (mkRGraph [(1%N, None); (2%N, None); (3%N, None)] [(1%N, [(2%N, None)]); (3%N, [(3%N, None)])]), 1%N, 2%N, 3%N.
  split; [|vm_compute; intuition discriminate]. split; [vm_compute; repeat constructor; cbn; intuition discriminate|].
  intros a c H. cbn in H. destruct (N.eq_dec a 1); [injection H as <-|destruct (N.eq_dec a 3); [injection H as <-|discriminate]]; (repeat constructor; intros []).
Qed.
Print Assumptions C62_connected_refuted.
Example C62_connect_case : let g := mkRGraph [(1%N, None); (2%N, None)] [] in
  rg_all_edges (rg_connect (rg_connect g 1 2 (Some (str "x"))) 1 2 None) = [(1%N, 2%N, Some (str "x"))] /\
  rg_all_edges (rg_connect g 1 3 None) = [] /\ rg_all_edges (fst (rg_disconnect (rg_connect g 1 2 None) 1 2)) = [].
Proof. vm_compute. repeat split. Qed.
