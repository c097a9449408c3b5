(** C81: which edges the fuzzy miner shows.
    C82: which activities the fuzzy miner puts into clusters. *)
From Coq Require Import QArith Permutation Lqa.
From Verif Require Import Py InfoModel RInfoModel RInfoSpec HeurSpec FuzzyModel FuzzySpec FuzzyProofs1 FuzzyProofs2 FuzzyProofs3 FuzzyProofs4
  FuzzyProofs5 FuzzyProofs6.
Open Scope nat_scope.

(** * C81 *)

(** One node for each activity which is frequent enough; an edge wherever [third_edge] says so, with the
    number of times the activities follow one another, whatever the order of the hash tables is. *)
Theorem C81_edges :
  forall ords log p next, (forall i, any_order (ords i)) -> (0 <= fp_ratio p)%Q ->
  exists info g next', fuzzy_edges ords log p next = Ok (info, g, next') /\ edge_graph log p g.
Proof. exact (fun ords log p next O R => edges_graph_proof ords O log p R next). Qed.
Print Assumptions C81_edges.

(** This graph is given as it is if all activities shown are at least as frequent as the bound for clusters. *)
Theorem C81_no_clusters :
  forall ords log p fuel next next_set, (forall i, any_order (ords i)) -> (0 <= fp_ratio p)%Q ->
  length (shown_names log p) < fuel -> (forall c, In c (shown_names log p) -> (fp_node p <= num (frequency log c))%Q) ->
  exists g next', discover_graph_fuzzy ords log p fuel next next_set = Ok (g, next') /\ edge_graph log p g.
Proof. exact (fun ords log p fuel next next_set O R => no_clusters_proof ords O log p R fuel next next_set). Qed.
Print Assumptions C81_no_clusters.

(** Two runs give the same edges between the same activities. *)
Theorem C81_same :
  forall ords ords' log p fuel next next' set set' g g' n n',
  (forall i, any_order (ords i)) -> (forall i, any_order (ords' i)) -> (0 <= fp_ratio p)%Q ->
  length (shown_names log p) < fuel -> (forall c, In c (shown_names log p) -> (fp_node p <= num (frequency log c))%Q) ->
  discover_graph_fuzzy ords log p fuel next set = Ok (g, n) -> discover_graph_fuzzy ords' log p fuel next' set' = Ok (g', n') ->
  forall i j i' j' a b,
  dget N.eq_dec (fg_nodes g) i = Some (Some a) -> dget N.eq_dec (fg_nodes g) j = Some (Some b) ->
  dget N.eq_dec (fg_nodes g') i' = Some (Some a) -> dget N.eq_dec (fg_nodes g') j' = Some (Some b) -> fedge g i j = fedge g' i' j'.
Proof.
  intros ords ords' log p fuel next next' set set' g g' n n' O O' R F C E E'.
  destruct (no_clusters_proof ords O log p R fuel next set F C) as (h & m & Eh & H). rewrite E in Eh. injection Eh as <- <-.
  destruct (no_clusters_proof ords' O' log p R fuel next' set' F C) as (h' & m' & Eh' & H'). rewrite E' in Eh'. injection Eh' as <- <-.
  exact (same_edges_proof log p g g' H H').
Qed.
Print Assumptions C81_same.

(** Of the edges into an activity which are left after conflicts a most useful one always stays, unless the
    bound for edges is above 1; then none does. *)
Theorem C81_best_stays :
  forall log p a b, second_edge log p a b -> (fp_edge p <= 1)%Q ->
  exists c, third_edge log p c b /\ forall d, second_edge log p d b -> (useful log p d b <= useful log p c b)%Q.
Proof. exact best_stays_proof. Qed.
Print Assumptions C81_best_stays.
Theorem C81_none_stays : forall log p a b, (1 < fp_edge p)%Q -> ~ third_edge log p a b.
Proof. exact none_stays_proof. Qed.
Print Assumptions C81_none_stays.

(** An activity which follows itself loses this edge exactly when it is weak. *)
Theorem C81_self :
  forall log p a, (0 <= fp_ratio p)%Q -> (second_edge log p a a <-> first_edge log p a a /\ ~ weak log p a a).
Proof. exact self_proof. Qed.
Print Assumptions C81_self.

Definition identity_orders (i k : nat) (A : Type) (l : list A) := l.
Definition one_reversed (m : nat) (i k : nat) (A : Type) (l : list A) := if Nat.eqb k m then rev l else l.
Lemma identity_any : forall i, any_order (identity_orders i).
Proof. intros i k A l. reflexivity. Qed.
Lemma reversed_any : forall m i, any_order (one_reversed m i).
Proof. intros m i k A l. unfold one_reversed. destruct (Nat.eqb k m); [apply Permutation_sym, Permutation_rev|reflexivity]. Qed.

Definition ft (l : list (string * Z)) : list (pystr * Z) := map (fun x => (str (fst x), snd x)) l.
Definition shown_graph (r : result (fgraph * N)) : option (list (option pystr) * list (option pystr * option pystr * option Q)) :=
  match r with
  | Ok (g, _) => Some (map snd (fg_nodes g),
      flat_map (fun i => flat_map (fun j => match fedge g (fst i) (fst j) with Some e => [(snd i, snd j, e)] | None => [] end) (fg_nodes g)) (fg_nodes g))
  | Err _ => None
  end.
Definition sn (s : string) : option pystr := Some (str s).

(** The weaker of two edges with a conflict goes (b to a: a third of what starts in b, all that ends in a). *)
Definition back_log : flog := [ft [("a", 0); ("b", 5); ("c", 6)]; ft [("a", 0); ("b", 5); ("c", 9)]; ft [("a", 0); ("b", 1); ("a", 2); ("b", 3)]]%string%Z.
Definition single_log : flog := [ft [("a", 0); ("a", 0); ("b", 1)]; ft [("b", 0)]; ft [("b", 0)]]%string%Z.
Example C81_edges_case :
  shown_graph (discover_graph_fuzzy identity_orders back_log (mkFParams 0 0 (3 # 4) (1 # 10) (1 # 2) 0 0) 5 0 0) =
  Some ([sn "a"; sn "b"; sn "c"], [(sn "a", sn "b", Some 4%Q); (sn "b", sn "c", Some 2%Q)])%string.
Proof. vm_compute. reflexivity. Qed.
Example C81_edges_case_kept :
  shown_graph (discover_graph_fuzzy (one_reversed 10) back_log (mkFParams 0 0 0 (1 # 10) (1 # 2) 0 0) 5 7 0) =
  Some ([sn "c"; sn "b"; sn "a"], [(sn "b", sn "c", Some 2%Q); (sn "b", sn "a", Some 1%Q); (sn "a", sn "b", Some 4%Q)])%string.
Proof. vm_compute. reflexivity. Qed.
Example C81_hypotheses_case :
  length (shown_names back_log (mkFParams 0 0 (3 # 4) (1 # 10) (1 # 2) 0 0)) < 5 /\
  (forall c, In c (shown_names back_log (mkFParams 0 0 (3 # 4) (1 # 10) (1 # 2) 0 0)) -> (0 <= num (frequency back_log c))%Q).
Proof. split; [vm_compute; repeat constructor|]. intros c _. unfold num, Qle, inject_Z. cbn. lia. Qed.

Example C81_best_stays_case :
  second_edge back_log (mkFParams 0 0 (3 # 4) (1 # 10) (1 # 2) 0 0) (str "a") (str "b") /\ second_edge single_log (mkFParams 0 0 0 0 1 0 0) (str "a") (str "a").
Proof. split; (apply third_b_ok; [vm_compute; discriminate|vm_compute; reflexivity]). Qed.

(** With a negative ratio both edges of a conflict could win: the first which is met goes, so the order
    decides. *)
Theorem C81_negative_ratio_refuted :
  ~ (forall ords ords' log p fuel next next_set, (forall i, any_order (ords i)) -> (forall i, any_order (ords' i)) ->
     shown_graph (discover_graph_fuzzy ords log p fuel next next_set) = shown_graph (discover_graph_fuzzy ords' log p fuel next next_set)).
Proof.
  intros H. specialize (H identity_orders (one_reversed 13) [ft [("a", 0); ("b", 1); ("a", 2)]]%string%Z (mkFParams 0 0 2 (-1) 1 0 0) 5 0%N 0%N identity_any (reversed_any 13)).
  vm_compute in H. discriminate.
Qed.
Print Assumptions C81_negative_ratio_refuted.

(** * C82 *)

(** The nodes are the activities which are not in clusters and the clusters, named after their members; an
    edge between two nodes stands for all edges between their members; clusters have no edge to themselves. *)
Theorem C82_clusters :
  forall ords log p fuel next next_set, (forall i, any_order (ords i)) -> (0 <= fp_ratio p)%Q ->
  length (shown_names log p) < fuel ->
  exists g next' blocks nodes, discover_graph_fuzzy ords log p fuel next next_set = Ok (g, next') /\
    grouped log p blocks /\ fuzzy_graph log p blocks nodes g.
Proof.
  intros ords log p fuel next next_set O R F. destruct (discover_proof ords O log p R fuel next next_set F) as (g & n & bs & ns & H1 & H2 & _ & _ & H3).
  exists g, n, bs, ns. auto.
Qed.
Print Assumptions C82_clusters.

(** Each activity below the bound which has an edge to another one, or another one with an edge to itself
    exists, is in exactly one cluster; no other activity is. *)
Theorem C82_members :
  forall log p blocks, grouped log p blocks ->
  NoDup (concat blocks) /\ (forall b, In b blocks -> b <> []) /\ forall c, In c (concat blocks) <-> clustered log p c.
Proof. exact blocks_proof. Qed.
Print Assumptions C82_members.

(** So which activities are in clusters does not depend on the order of hash tables. *)
Theorem C82_same_members :
  forall log p blocks blocks', grouped log p blocks -> grouped log p blocks' -> Permutation (concat blocks) (concat blocks').
Proof.
  intros log p bs bs' G G'. destruct (blocks_proof log p bs G) as (N1 & _ & H1). destruct (blocks_proof log p bs' G') as (N2 & _ & H2).
  apply NoDup_Permutation; [exact N1|exact N2|]. intros c. rewrite H1, H2. reflexivity.
Qed.
Print Assumptions C82_same_members.

Definition mixed_log : flog :=
  [ft [("c", 0); ("d", 10)]; ft [("c", 0); ("x", 1)]; ft [("x", 0); ("d", 1); ("e", 2)]; ft [("x", 0)]; ft [("x", 0)]; ft [("e", 0)]; ft [("e", 0)]]%string%Z.
Definition rare_below_3 : fparams := mkFParams 0 0 0 0 1 0 3.
Example C82_clusters_case :
  length (shown_names mixed_log rare_below_3) < 10 /\
  shown_graph (discover_graph_fuzzy (one_reversed 19) mixed_log rare_below_3 10 0 0) =
  Some ([sn "x"; sn "e"; sn "Cluster[d,c]"],
        [(sn "x", sn "Cluster[d,c]", Some 1%Q); (sn "Cluster[d,c]", sn "x", Some 1%Q); (sn "Cluster[d,c]", sn "e", Some 1%Q)])%string.
Proof. split; [vm_compute; repeat constructor|vm_compute; reflexivity]. Qed.

Example C82_members_case :
  clustered mixed_log rare_below_3 (str "c") /\ ~ clustered mixed_log rare_below_3 (str "x") /\ exists blocks, grouped mixed_log rare_below_3 blocks.
Proof.
  split; [|split].
  - split; [vm_compute; auto|]. split; [vm_compute; reflexivity|]. exists (str "d"). split; [vm_compute; discriminate|]. left. apply third_b_ok; [vm_compute; discriminate|vm_compute; reflexivity].
  - intros (_ & H & _). vm_compute in H. discriminate.
  - destruct (C82_clusters identity_orders mixed_log rare_below_3 10 0 0 identity_any) as (g & n & bs & ns & _ & G & _); [vm_compute; discriminate|vm_compute; repeat constructor|eauto].
Qed.

(** Which activities are together depends on the order of hash tables. *)
Theorem C82_order_refuted :
  ~ (forall ords ords' log p fuel next next_set, (forall i, any_order (ords i)) -> (forall i, any_order (ords' i)) -> (0 <= fp_ratio p)%Q ->
     forall g g' n n', discover_graph_fuzzy ords log p fuel next next_set = Ok (g, n) -> discover_graph_fuzzy ords' log p fuel next next_set = Ok (g', n') ->
     length (fg_nodes g) = length (fg_nodes g')).
Proof.
  intros H. specialize (H identity_orders (one_reversed 19) mixed_log rare_below_3 10 0%N 0%N identity_any (reversed_any 19)).
  assert (R : (0 <= fp_ratio rare_below_3)%Q) by (unfold rare_below_3; cbn; lra). specialize (H R).
  destruct (discover_graph_fuzzy identity_orders mixed_log rare_below_3 10 0 0) as [[g n]|] eqn:E; [|vm_compute in E; discriminate].
  destruct (discover_graph_fuzzy (one_reversed 19) mixed_log rare_below_3 10 0 0) as [[g' n']|] eqn:E'; [|vm_compute in E'; discriminate].
  specialize (H g g' n n' eq_refl eq_refl). vm_compute in E, E'. injection E as <- <-. injection E' as <- <-. cbn in H. discriminate.
Qed.
Print Assumptions C82_order_refuted.

(** Not true: that an activity is only put into a cluster if it is connected with something. *)
Theorem C82_connected_refuted :
  ~ (forall log p c, clustered log p c -> exists d, third_edge log p c d \/ third_edge log p d c).
Proof. exact connected_refuted_proof. Qed.
Print Assumptions C82_connected_refuted.
Definition lone_log : flog := [ft [("a", 0); ("a", 1); ("a", 2)]; ft [("b", 0)]]%string%Z.
Example C82_connected_case :
  shown_graph (discover_graph_fuzzy identity_orders lone_log rare_below_3 10 0 0) =
  Some ([sn "a"; sn "Cluster[b]"], [(sn "a", sn "a", Some 2%Q)])%string.
Proof. vm_compute. reflexivity. Qed.

(** Not true: that all rare activities connected with others are put into clusters; those with incoming edges
    only are not. *)
Theorem C82_incoming_refuted :
  ~ (forall log p c d, In c (shown_names log p) -> (num (frequency log c) < fp_node p)%Q -> d <> c -> third_edge log p d c -> clustered log p c).
Proof. exact incoming_refuted_proof. Qed.
Print Assumptions C82_incoming_refuted.

(** Not true: that a cluster has at least two members and all edges stay; a single activity can be renamed and
    lose the edge to itself. *)
Theorem C82_two_members_refuted :
  ~ (forall log p blocks, grouped log p blocks -> forall b, In b blocks -> 2 <= length b).
Proof. exact two_members_refuted_proof. Qed.
Print Assumptions C82_two_members_refuted.
Example C82_single_case :
  shown_graph (discover_graph_fuzzy identity_orders single_log rare_below_3 10 0 0) =
  Some ([sn "b"; sn "Cluster[a]"], [(sn "Cluster[a]", sn "b", Some 1%Q)])%string /\
  shown_graph (discover_graph_fuzzy identity_orders single_log (mkFParams 0 0 0 0 1 0 0) 10 0 0) =
  Some ([sn "a"; sn "b"], [(sn "a", sn "a", Some 1%Q); (sn "a", sn "b", Some 1%Q)])%string.
Proof. split; vm_compute; reflexivity. Qed.
