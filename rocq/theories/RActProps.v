(** Properties C67-C69: tandem arrays, repeat sets, their forest and activity instances of the backend. *)
From Coq Require Import Sorting.Sorted Permutation.
From Verif Require Import Py HashModel PatternModel PatternSpec TreeModel TreeSpec TreeProofs ActModel ActSpec RInfoSpec RActModel RActSpec RActProofs1 RActProofs2 RActProofs3 RActProofs4.

(** C67: tandem arrays are found iff no hash overflows. *)
Theorem C67_tandem_arrays_total : forall sip trace max,
  (forall i L, 2 <= L -> L < max -> i + L < length trace -> hashable sip (piece trace i L)) <-> exists arrays, r_maximal_of_trace sip max trace = Ok arrays.
Proof. exact r_total_proof. Qed.
Print Assumptions C67_tandem_arrays_total.

(** They are exactly the repetitions that go on as long as possible whose block has a hash not seen before. *)
Theorem C67_tandem_arrays_exact : forall sip trace max arrays, r_maximal_of_trace sip max trace = Ok arrays -> forall i L r,
  (In (mkTandem i L r) arrays <->
   2 <= L /\ L < max /\ 2 <= r /\ repeated trace i L r /\ ~ repeated trace i L (S r) /\
   forall L' i', 2 <= L' -> i' + L' < length trace -> before (L', i') (L, i) ->
     poly_hash sip (piece trace i' L') <> poly_hash sip (piece trace i L)).
Proof. exact r_exact_proof. Qed.
Print Assumptions C67_tandem_arrays_exact.

(** Without collisions of hashes: whose block is not in the trace before. *)
Theorem C67_tandem_arrays_first_occurrence : forall sip trace max arrays, apart sip trace -> r_maximal_of_trace sip max trace = Ok arrays ->
  forall i L r,
  (In (mkTandem i L r) arrays <->
   2 <= L /\ L < max /\ 2 <= r /\ repeated trace i L r /\ ~ repeated trace i L (S r) /\
   forall i', i' < i -> piece trace i' L <> piece trace i L).
Proof. exact r_first_proof. Qed.
Print Assumptions C67_tandem_arrays_first_occurrence.

(** The older Python library finds the same ones, in the same order. *)
Theorem C67_tandem_arrays_as_before : forall sip trace max, no_collision trace -> apart sip trace ->
  (forall i L, 2 <= L -> L < max -> i + L < length trace -> hashable sip (piece trace i L)) ->
  r_maximal_of_trace sip max trace = Ok (maximal_tandem_arrays_of_trace trace (Z.of_nat max)).
Proof. exact legacy_proof. Qed.
Print Assumptions C67_tandem_arrays_as_before.

(** Primitive ones: those where no shorter block is repeated at the start. *)
Theorem C67_primitive_exact : forall sip log max prims, r_find_primitive sip log max = Ok prims ->
  exists maximal, r_find_maximal sip log max = Ok maximal /\ length prims = length log /\
  forall k trace arrays ps, nth_error log k = Some trace -> nth_error maximal k = Some arrays -> nth_error prims k = Some ps ->
  forall a, In a ps <-> In a arrays /\ forall c, 2 <= c -> 2 * c <= ta_length a + 1 -> ~ repeated trace (ta_first_pos a) c 2.
Proof. exact primitive_log_proof. Qed.
Print Assumptions C67_primitive_exact.

(** Repeat sets are found iff the patterns are inside of their traces and no hash overflows. *)
Theorem C67_repeat_sets_total : forall sip ord, any_order ord -> forall log patterns,
  within log patterns /\ sets_hashable sip log patterns <-> exists l, r_build_repeat_sets sip ord log patterns = Ok l.
Proof. exact sets_total_proof. Qed.
Print Assumptions C67_repeat_sets_total.

(** Sorted, from the patterns, no two with the same classes; without collisions the first pattern of each class set. *)
Theorem C67_repeat_sets_exact : forall sip ord, any_order ord -> forall log patterns l, r_build_repeat_sets sip ord log patterns = Ok l ->
  StronglySorted earlier l /\
  exists l0, Permutation l (map fst l0) /\ incl l0 (all_patterns 0 (combine patterns log)) /\
    (forall i j x y, i <> j -> nth_error l0 i = Some x -> nth_error l0 j = Some y -> ~ same_set (snd x) (snd y)) /\
    (sets_apart sip log patterns -> forall x, In x l0 <->
       exists p q, all_patterns 0 (combine patterns log) = p ++ x :: q /\ forall y, In y p -> ~ same_set (snd y) (snd x)).
Proof. exact sets_found_proof. Qed.
Print Assumptions C67_repeat_sets_exact.

(** Without collisions every pattern has its classes in some repeat set. *)
Theorem C67_repeat_sets_cover : forall sip ord, any_order ord -> forall log patterns l, sets_apart sip log patterns -> r_build_repeat_sets sip ord log patterns = Ok l ->
  forall p, In p (all_patterns 0 (combine patterns log)) ->
  exists r, In r l /\ exists t, In (r, t) (all_patterns 0 (combine patterns log)) /\ same_set t (snd p).
Proof. exact sets_covered_proof. Qed.
Print Assumptions C67_repeat_sets_cover.

(** Then the older Python library finds the same ones. *)
Theorem C67_repeat_sets_as_before : forall sip ord, any_order ord -> forall log patterns l, collision_free log patterns -> sets_apart sip log patterns ->
  r_build_repeat_sets sip ord log patterns = Ok l -> Permutation l (create_repeat_sets log patterns).
Proof. exact sets_legacy_proof. Qed.
Print Assumptions C67_repeat_sets_as_before.

(** Whatever the order of the hash tables. *)
Theorem C67_any_order : forall sip ord ord' log patterns, any_order ord -> any_order ord' ->
  r_build_repeat_sets sip ord log patterns = r_build_repeat_sets sip ord' log patterns.
Proof. exact sets_order_proof. Qed.
Print Assumptions C67_any_order.

(** For any hash of std some two classes overflow or are taken for the same: one of two patterns is lost. *)
Theorem C67_every_class_set_found_refuted : forall sip ord, any_order ord -> exists a b, a <> b /\
  (r_build_repeat_sets sip ord [[a; b]] [[mkSub 0 1; mkSub 1 1]] = Err AssertionErr \/
   r_build_repeat_sets sip ord [[a; b]] [[mkSub 0 1; mkSub 1 1]] = Ok [mkRS 0 1 0]).
Proof. intros sip ord Ho. destruct (confused_proof sip ord Ho) as [a [b [H [_ [_ K]]]]]. exists a, b. split; assumption. Qed.
Print Assumptions C67_every_class_set_found_refuted.

(** a b x a b a b has abab, which is not found: ab was seen before. *)
Theorem C67_all_repetitions_found_refuted : exists sip trace, repeated trace 3 2 2 /\ r_maximal_of_trace sip 10 trace = Ok [].
Proof.
  exists (fun n => n), [1;2;9;1;2;1;2]%N. split; [|vm_compute; reflexivity]. split; [cbn; lia|]. intros [|[|k]] Hk; [reflexivity|reflexivity|lia].
Qed.
Print Assumptions C67_all_repetitions_found_refuted.

Example C67_case : r_maximal_of_trace (fun n => n) 10 [1;2;3;1;2;3;1;2;4;5;4;5]%N = Ok [mkTandem 8 2 2; mkTandem 0 3 2; mkTandem 1 3 2; mkTandem 2 3 2].
Proof. vm_compute. reflexivity. Qed.
Example C67_primitive_case : r_find_primitive (fun n => n) [[1;2;1;2;1;2;1;2;7;1;2;3;1;2;3]%N] 10 = Ok [[mkTandem 0 2 4; mkTandem 1 2 3; mkTandem 9 3 2]].
Proof. vm_compute. reflexivity. Qed.
Example C67_apart_case : apart (fun n => n * n)%N [1;2;1;2;5]%N.
Proof.
  intros i L j M HL HM Hi Hj. cbn in Hi, Hj.
  do 6 (destruct i as [|i]; [do 6 (destruct L as [|L]; [do 6 (destruct j as [|j]; [do 6 (destruct M as [|M];
    [try lia; vm_compute; first [reflexivity | intros; discriminate | intros _; reflexivity] |]); lia|]); lia|]); lia|]); lia.
Qed.
Example C67_overflow_case : r_maximal_of_trace (fun _ => u64_range - 1)%N 10 [1;2;3]%N = Err AssertionErr.
Proof. vm_compute. reflexivity. Qed.
Example C67_sets_case : r_build_repeat_sets (fun n => n) (fun _ _ l => rev l) [[1;2;1;2]; [2;1;3]]%N [[mkSub 0 2; mkSub 1 3]; [mkSub 0 3; mkSub 0 2]] =
  Ok [mkRS 0 2 0; mkRS 0 3 1].
Proof. vm_compute. reflexivity. Qed.

(** C68: the nodes of the forest are the given sets. *)
Theorem C68_nodes_are_the_sets : forall D (input : list (raw_node D)), proper input -> forall d s,
  (exists a, in_forest a (r_build_tree input) /\ an_data a = d /\ an_set a = s) <-> exists r, In r input /\ rn_data r = d /\ rn_set r = s.
Proof. intros D input [H1 H2]. exact (r_sources_proof input H1 H2). Qed.
Print Assumptions C68_nodes_are_the_sets.

(** One node per set, wherever it hangs. *)
Theorem C68_one_node_per_set : forall D (input : list (raw_node D)), proper input -> forall a b,
  in_forest a (r_build_tree input) -> in_forest b (r_build_tree input) -> same_set (an_set a) (an_set b) -> a = b.
Proof. intros D input [H1 H2] a b Ha Hb Hs. apply (r_shared_proof input H1 H2 a b Ha Hb); intros x; apply Hs. Qed.
Print Assumptions C68_one_node_per_set.

(** The children of a node exactly: below a node that is not of the largest size hang all sets strictly inside it;
    below one of the largest size those which are inside of such ones only. *)
Theorem C68_children_exact : forall D (input : list (raw_node D)), proper input -> forall a b,
  in_forest a (r_build_tree input) -> in_forest b (r_build_tree input) ->
  (child_of b a <->
   strictly_in (an_set b) (an_set a) /\
   ((exists r, In r input /\ length (an_set a) < length (rn_set r)) \/
    forall r, In r input -> strictly_in (an_set b) (rn_set r) -> forall r', In r' input -> length (rn_set r') <= length (rn_set r))).
Proof. intros D input [H1 H2]. exact (r_children_proof input H1 H2). Qed.
Print Assumptions C68_children_exact.
Theorem C68_children_once : forall D (input : list (raw_node D)), proper input -> forall a, in_forest a (r_build_tree input) -> NoDup (an_children a).
Proof. intros D input [H1 H2]. exact (r_children_once_proof input H1 H2). Qed.
Print Assumptions C68_children_once.

(** The roots are the sets strictly inside of no other one. *)
Theorem C68_roots_maximal : forall D (input : list (raw_node D)), proper input -> forall a, in_forest a (r_build_tree input) ->
  (In a (r_build_tree input) <-> forall r, In r input -> ~ strictly_in (an_set a) (rn_set r)).
Proof. intros D input [H1 H2]. exact (r_roots_proof input H1 H2). Qed.
Print Assumptions C68_roots_maximal.

(** For repeat sets found in a log nothing is assumed and nothing panics. *)
Theorem C68_discovered_forest : forall D (make : repeat_set -> D) sip ord log patterns rsets, any_order ord -> r_build_repeat_sets sip ord log patterns = Ok rsets ->
  exists F, r_tree_from_repeats make log rsets = Ok F /\
    (forall r, In r rsets -> exists a, in_forest a F /\ an_data a = make r /\ same_set (an_set a) (classes log r)) /\
    (forall a, in_forest a F -> exists r, In r rsets /\ an_data a = make r /\ same_set (an_set a) (classes log r)) /\
    (forall a b, in_forest a F -> in_forest b F -> same_set (an_set a) (an_set b) -> a = b) /\
    (forall a, in_forest a F -> NoDup (an_children a)) /\
    (forall a b, in_forest a F -> child_of b a -> strictly_in (an_set b) (an_set a)) /\
    (forall a, in_forest a F -> (In a F <-> forall r, In r rsets -> ~ strictly_in (an_set a) (classes log r))).
Proof. exact r_discovered_proof. Qed.
Print Assumptions C68_discovered_forest.

Definition forest_case : list (raw_node N) := [mkRaw 0 [1]; mkRaw 1 [1;2;3]; mkRaw 2 [1;4]; mkRaw 3 [1;2]]%N.
Example C68_case : r_build_tree forest_case =
  [ANode 1%N [1;2;3] [ANode 3%N [1;2] [ANode 0%N [1] []]]; ANode 2%N [1;4] [ANode 0%N [1] []]]%N.
Proof. vm_compute. reflexivity. Qed.
Example C68_case_hypotheses : proper forest_case.
Proof.
  split; [repeat constructor; cbn; intuition discriminate|].
  assert (K : forall a b, contains_set a b && contains_set b a = false -> included a b -> included b a -> False).
  { intros a b E H1 H2. apply contains_set_iff in H1, H2. rewrite H1, H2 in E. discriminate. }
  intros [|[|[|[|i]]]] [|[|[|[|j]]]] x y Hi Hj H1 H2; try reflexivity; exfalso; cbn in Hi, Hj;
    try (destruct i; discriminate); try (destruct j; discriminate); injection Hi as <-; injection Hj as <-;
    (eapply K; [|exact H1|exact H2]; vm_compute; reflexivity).
Qed.
(** A set inside of another one need not be below it: the set of 1 is not below that of 1, 2, 3. *)
Theorem C68_every_contained_set_below_refuted : exists (input : list (raw_node N)) a b, proper input /\
  In a (r_build_tree input) /\ in_forest b (r_build_tree input) /\ strictly_in (an_set b) (an_set a) /\ ~ below b a.
Proof.
  exists [mkRaw 0 [1]; mkRaw 1 [1;2;3]; mkRaw 2 [1;4]]%N, (ANode 1%N [1;2;3]%N []), (ANode 0%N [1]%N []).
  split; [|split; [vm_compute; auto|split; [vm_compute; auto|split]]].
  - split; [repeat constructor; cbn; intuition discriminate|].
    assert (K : forall a b, contains_set a b && contains_set b a = false -> included a b -> included b a -> False).
    { intros a b E H1 H2. apply contains_set_iff in H1, H2. rewrite H1, H2 in E. discriminate. }
    intros [|[|[|i]]] [|[|[|j]]] x y Hi Hj H1 H2; try reflexivity; exfalso; cbn in Hi, Hj;
      try (destruct i; discriminate); try (destruct j; discriminate); injection Hi as <-; injection Hj as <-;
      (eapply K; [|exact H1|exact H2]; vm_compute; reflexivity).
  - split; [intros x [<-|[]]; cbn; auto|]. intros H. specialize (H 2%N). cbn in H. destruct H; [auto|discriminate|assumption].
  - intros H. inversion H as [? ? Hc|? b' ? Hb' Hc]; subst; destruct Hc.
Qed.
Print Assumptions C68_every_contained_set_below_refuted.
(** Children need not be the largest sets inside: 1 hangs below 1, 2, 3 and also below 1, 2, which itself hangs there. *)
Theorem C68_children_largest_refuted : exists (input : list (raw_node N)) a b c, 
  in_forest a (r_build_tree input) /\ child_of b a /\ child_of c a /\ strictly_in (an_set c) (an_set b).
Proof.
  exists [mkRaw 0 [1]; mkRaw 1 [1;2;3;4]; mkRaw 2 [1;2]; mkRaw 3 [1;2;3]]%N,
    (ANode 3%N [1;2;3]%N [ANode 2%N [1;2]%N [ANode 0%N [1]%N []]; ANode 0%N [1]%N []]), (ANode 2%N [1;2]%N [ANode 0%N [1]%N []]), (ANode 0%N [1]%N []).
  split; [vm_compute; auto|]. split; [left; reflexivity|]. split; [right; left; reflexivity|].
  split; [intros x [<-|[]]; cbn; auto|]. intros H. specialize (H 2%N). cbn in H. destruct H; [auto|discriminate|assumption].
Qed.
Print Assumptions C68_children_largest_refuted.

(** C69: activity instances are found in every log, in the order of their places. *)
Theorem C69_instances_total : forall D (name : D -> pystr) log activities kind min_events fkind,
  exists r, r_extract_instances name log activities kind min_events fkind = Ok r /\
    Forall2 (fun trace l => extract_trace name activities (narrows kind) (is_suitable min_events fkind) trace = Some l /\ ordered 0 (length trace) l) log r.
Proof. exact r_instances_proof. Qed.
Print Assumptions C69_instances_total.

(** Exactly: the segments of the trace, each with its narrowed activity, those which the filter lets through. *)
Theorem C69_instances_exact : forall D (name : D -> pystr) activities kind min_events fkind trace,
  exists segs ys l, segments name activities trace 0 segs /\ Forall2 (reported (narrows kind) trace) segs ys /\
    r_extract_trace (r_split_by_size name activities) kind min_events fkind trace = Ok l /\ ordered 0 (length trace) l /\
    thinned l ys /\ forall x, In x l <-> In x ys /\ suitable min_events fkind x.
Proof. exact r_exact_instances_proof. Qed.
Print Assumptions C69_instances_exact.

Theorem C69_contents : forall D (name : D -> pystr) activities kind min_events fkind trace l,
  r_extract_trace (r_split_by_size name activities) kind min_events fkind trace = Ok l ->
  forall x, In x l -> included (piece trace (in_start x) (in_length x)) (an_set (in_node x)) /\
    exists a, In a activities /\ included (piece trace (in_start x) (in_length x)) (an_set a) /\ (in_node x = a \/ narrows kind = true /\ below (in_node x) a).
Proof. exact r_contents_proof. Qed.
Print Assumptions C69_contents.

(** Without a filter a position is inside of an instance iff its class is of some activity. *)
Theorem C69_covered_iff_attachable : forall D (name : D -> pystr) activities kind min_events trace l,
  r_extract_trace (r_split_by_size name activities) kind min_events NoFilter trace = Ok l ->
  forall j h, nth_error trace j = Some h -> (covered l j <-> exists a, In a activities /\ In h (an_set a)).
Proof. exact r_covered_proof. Qed.
Print Assumptions C69_covered_iff_attachable.

(** The filter only leaves instances out, exactly those of small activities or with too few events. *)
Theorem C69_filter_exact : forall D (name : D -> pystr) activities kind min_events min' trace l l',
  r_extract_trace (r_split_by_size name activities) kind min_events DefaultFilter trace = Ok l ->
  r_extract_trace (r_split_by_size name activities) kind min' NoFilter trace = Ok l' ->
  thinned l l' /\ forall x, In x l <-> In x l' /\ min_events <= length (an_set (in_node x)) /\ length (an_set (in_node x)) / 2 < in_length x.
Proof. exact r_filter_proof. Qed.
Print Assumptions C69_filter_exact.

(** Narrowing: a smallest activity below which has all classes of the instance. *)
Theorem C69_narrowing : forall D kind (a : anode D) s, inclusion_tree a -> included s (an_set a) -> exists r, r_narrow kind a s = Ok r /\
  if narrows kind then (r = a \/ below r a) /\ included s (an_set r) /\ (forall b, below b a -> included s (an_set b) -> length (an_set r) <= length (an_set b)) /\ (r = a -> forall b, below b a -> ~ included s (an_set b))
  else r = a.
Proof. exact r_narrow_proof. Qed.
Print Assumptions C69_narrowing.

(** The two ways of narrowing do not differ, nor do the two of not narrowing. *)
Theorem C69_up_and_down_differ_refuted : forall D (name : D -> pystr) activities min_events fkind trace,
  r_extract_trace (r_split_by_size name activities) NarrowUp min_events fkind trace = r_extract_trace (r_split_by_size name activities) NarrowDown min_events fkind trace /\
  r_extract_trace (r_split_by_size name activities) DontNarrow min_events fkind trace = r_extract_trace (r_split_by_size name activities) StayTheSame min_events fkind trace.
Proof. intros D name activities min_events fkind trace. rewrite !r_trace_eq. split; reflexivity. Qed.
Print Assumptions C69_up_and_down_differ_refuted.

(** Adding instances to a trace keeps the old ones and adds those found in the maximal stretches outside of them. *)
Theorem C69_adding : forall D (name : D -> pystr) activities minimum kind min_events fkind trace l, ordered 0 (length trace) l ->
  exists r, r_add_unattached_trace name activities minimum kind min_events fkind l trace = Ok r /\ ordered 0 (length trace) r /\ thinned l r /\
    forall x, In x r <-> In x l \/ exists a b ys y, stretch l (length trace) a b /\ minimum <= b - a /\
      r_extract_trace (r_split_by_size name activities) kind min_events fkind (piece trace a (b - a)) = Ok ys /\ In y ys /\ x = moved a y.
Proof. exact @add_proof. Qed.
Print Assumptions C69_adding.

Definition instances_case : list (anode pystr) :=
  [ANode (str "big") [1;2;3]%N [ANode (str "small") [1;2]%N []]; ANode (str "other") [4]%N []].
Example C69_case : r_extract_trace (r_split_by_size (fun n => n) instances_case) NarrowDown 0 NoFilter [9; 1; 2; 4; 1; 3; 9; 2]%N =
  Ok [mkInst (ANode (str "small") [1;2]%N []) 1 2; mkInst (ANode (str "other") [4]%N []) 3 1;
      mkInst (ANode (str "big") [1;2;3]%N [ANode (str "small") [1;2]%N []]) 4 2; mkInst (ANode (str "small") [1;2]%N []) 7 1].
Proof. vm_compute. reflexivity. Qed.
Example C69_filter_case : r_extract_trace (r_split_by_size (fun n => n) instances_case) NarrowDown 2 DefaultFilter [9; 1; 2; 4; 1; 3; 9; 2]%N =
  Ok [mkInst (ANode (str "small") [1;2]%N []) 1 2; mkInst (ANode (str "big") [1;2;3]%N [ANode (str "small") [1;2]%N []]) 4 2].
Proof. vm_compute. reflexivity. Qed.
Example C69_adding_case :
  let old := [mkInst (ANode (str "big") [1;2;3]%N []) 2 2] in
  ordered 0 6 old /\
  r_add_unattached_trace (fun n => n) [ANode (str "other") [4]%N []] 1 NarrowDown 0 NoFilter old [9; 4; 1; 2; 4; 4]%N =
  Ok [mkInst (ANode (str "other") [4]%N []) 1 1; mkInst (ANode (str "big") [1;2;3]%N []) 2 2; mkInst (ANode (str "other") [4]%N []) 4 2].
Proof. split; [cbn; lia|vm_compute; reflexivity]. Qed.
