(** Property C25: the tree of repeat sets. *)
From Coq Require Import Permutation.
From Verif Require Import Py PatternModel PatternSpec TreeModel TreeSpec TreeProofs.

(** Every input set becomes exactly one node of the forest, with its data. *)
Theorem C25_every_set_once : forall D (input : list (raw_node D)),
  Permutation (map source (flat_map nodes_of (build_repeat_set_tree input))) (map (fun r => (rn_data r, rn_set r)) input).
Proof. exact @tree_sources_proof. Qed.
Print Assumptions C25_every_set_once.

(** A child is included in its parent, and the parent is a smallest input that strictly includes
    the child. *)
Theorem C25_children : forall D (input : list (raw_node D)), Forall (fun r => NoDup (rn_set r)) input ->
  forall a b, In a (flat_map nodes_of (build_repeat_set_tree input)) -> child_of b a ->
  included (an_set b) (an_set a) /\
  forall r, In r input -> included (an_set b) (rn_set r) -> ~ included (rn_set r) (an_set b) -> length (an_set a) <= length (rn_set r).
Proof. exact @tree_children_proof. Qed.
Print Assumptions C25_children.

(** For pairwise different sets the roots are exactly the maximal ones. *)
Theorem C25_roots : forall D (input : list (raw_node D)), Forall (fun r => NoDup (rn_set r)) input ->
  (forall i j x y, nth_error input i = Some x -> nth_error input j = Some y ->
     included (rn_set x) (rn_set y) -> included (rn_set y) (rn_set x) -> i = j) ->
  forall a, In a (flat_map nodes_of (build_repeat_set_tree input)) ->
  (In a (build_repeat_set_tree input) <-> forall r, In r input -> included (an_set a) (rn_set r) -> included (rn_set r) (an_set a)).
Proof. exact @tree_roots_proof. Qed.
Print Assumptions C25_roots.

(** On the repeat sets found in a log none of the hypotheses is needed: building never fails, the
    nodes are the repeat sets, inclusion is strict along edges and the roots are the maximal sets. *)
Theorem C25_discovered_forest : forall D (make : repeat_set -> D) traces subs,
  let rsets := create_repeat_sets traces subs in
  exists F, do_build_repeat_set_tree make traces rsets = Ok F /\
    (exists perm, Permutation perm rsets /\
       Forall2 (fun a r => an_data a = make r /\ forall c, In c (an_set a) <-> In c (classes traces r)) (flat_map nodes_of F) perm) /\
    (forall a b, In a (flat_map nodes_of F) -> child_of b a -> included (an_set b) (an_set a) /\ ~ included (an_set a) (an_set b)) /\
    (forall a, In a (flat_map nodes_of F) ->
       (In a F <-> forall r, In r rsets -> included (an_set a) (classes traces r) -> included (classes traces r) (an_set a))).
Proof. exact @discovered_proof. Qed.
Print Assumptions C25_discovered_forest.

(** Without distinctness the roots are not the maximal sets: of two equal sets that are not of
    maximal size one hides below the other, while two of maximal size are both roots. *)
Theorem C25_equal_sets_refuted : exists input : list (raw_node nat),
  Forall (fun r => NoDup (rn_set r)) input /\
  exists a, In a (flat_map nodes_of (build_repeat_set_tree input)) /\ ~ In a (build_repeat_set_tree input) /\
    forall r, In r input -> included (an_set a) (rn_set r) -> included (rn_set r) (an_set a).
Proof.
  exists [mkRaw 0 [1;2]%N; mkRaw 1 [3]%N; mkRaw 2 [3]%N]. split.
  - repeat constructor; cbn; intuition discriminate.
  - exists (ANode 2 [3]%N []). split; [vm_compute; auto|]. split; [vm_compute; intuition discriminate|].
    intros r [<-|[<-|[<-|[]]]] H x Hx; cbn in *; try assumption. specialize (H 3%N (or_introl eq_refl)). cbn in H. intuition discriminate.
Qed.
Print Assumptions C25_equal_sets_refuted.

(** Three levels, two roots. *)
Example C25_case :
  let input := [mkRaw 0 [1]; mkRaw 1 [1;2;3]; mkRaw 2 [4]; mkRaw 3 [1;2]; mkRaw 4 [2;3;5]]%N in
  build_repeat_set_tree input =
    [ANode 1 [1;2;3] [ANode 3 [1;2] [ANode 0 [1] []]]; ANode 4 [2;3;5] []; ANode 2 [4] []]%N.
Proof. vm_compute. reflexivity. Qed.
Example C25_case_hypotheses :
  let input := [mkRaw 0 [1]; mkRaw 1 [1;2;3]; mkRaw 2 [4]; mkRaw 3 [1;2]; mkRaw 4 [2;3;5]]%N in
  Forall (fun r : raw_node N => NoDup (rn_set r)) input /\
  (forall i j x y, nth_error input i = Some x -> nth_error input j = Some y -> included (rn_set x) (rn_set y) -> included (rn_set y) (rn_set x) -> i = j).
Proof.
  cbv zeta. split; [repeat constructor; cbn; intuition discriminate|].
  assert (K : forall a b, contains_set a b && contains_set b a = false -> included a b -> included b a -> False).
  { intros a b E H1 H2. apply contains_set_iff in H1, H2. rewrite H1, H2 in E. discriminate. }
  intros [|[|[|[|[|i]]]]] [|[|[|[|[|j]]]]] x y Hi Hj H1 H2; try reflexivity; exfalso; cbn in Hi, Hj;
    try (destruct i; discriminate); try (destruct j; discriminate); injection Hi as <-; injection Hj as <-;
    (eapply K; [|exact H1|exact H2]; vm_compute; reflexivity).
Qed.
(** The discovered forest of two traces. *)
Example C25_discovered_case :
  do_build_repeat_set_tree (fun r => rs_trace_index r) [[1;2;1;2]; [2;1;3]]%N (create_repeat_sets [[1;2;1;2]; [2;1;3]]%N [[mkSub 0 2; mkSub 1 3]; [mkSub 0 2; mkSub 0 3]])
  = Ok [ANode 1 [1;2;3]%N [ANode 0 [1;2]%N []]].
Proof. vm_compute. reflexivity. Qed.
