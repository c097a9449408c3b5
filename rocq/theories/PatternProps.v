(** C21-C24: tandem arrays, super-maximal repeats, repeat sets. *)
From Verif Require Import Py HashModel PatternModel PatternSpec PatternProofs RepeatProofs.

Theorem C21_tandem_arrays_exact :
  forall (trace : list N) (max : Z) i L r,
    In (mkTandem i L r) (maximal_tandem_arrays_of_trace trace max) <->
    2 <= L /\ (Z.of_nat L < max)%Z /\ 2 <= r /\ repeated trace i L r /\ ~ repeated trace i L (S r) /\
    (forall L' i', 2 <= L' -> i' + L' < length trace -> before (L', i') (L, i) ->
       collection_poly_hash_slice trace i' (i' + L') <> collection_poly_hash_slice trace i (i + L)).
Proof. exact tandem_exact_proof. Qed.
Print Assumptions C21_tandem_arrays_exact.

(** Without hash collisions: exactly the right-maximal repetitions whose block does not occur earlier. *)
Theorem C21_tandem_arrays_first_occurrence :
  forall (trace : list N) (max : Z) i L r, no_collision trace ->
    (In (mkTandem i L r) (maximal_tandem_arrays_of_trace trace max) <->
     2 <= L /\ (Z.of_nat L < max)%Z /\ 2 <= r /\ repeated trace i L r /\ ~ repeated trace i L (S r) /\
     forall i', i' < i -> piece trace i' L <> piece trace i L).
Proof. exact tandem_first_proof. Qed.
Print Assumptions C21_tandem_arrays_first_occurrence.

(** abcabcab, then dede: arrays with period 2 and 3 *)
Example C21_case : maximal_tandem_arrays_of_trace [1;2;3;1;2;3;1;2;4;5;4;5]%N 10 =
  [mkTandem 8 2 2; mkTandem 0 3 2; mkTandem 1 3 2; mkTandem 2 3 2].
Proof. vm_compute. reflexivity. Qed.

(** Hash freedom holds for instance here. *)
Example C21_no_collision_case : no_collision [1;2;1;2;5]%N.
Proof.
  intros i L j M Hi Hj. cbn in Hi, Hj.
  do 6 (destruct i as [|i]; [do 6 (destruct L as [|L]; [do 6 (destruct j as [|j]; [do 6 (destruct M as [|M];
    [try lia; vm_compute; first [reflexivity | intros; discriminate | intros _; reflexivity] |]); lia|]); lia|]); lia|]); lia.
Qed.

(** The array (1, 3) above is a part of a longer periodic stretch starting at 0: not left maximal. *)
Theorem C21_left_maximal_refuted :
  exists trace i L r, In (mkTandem (S i) L r) (maximal_tandem_arrays_of_trace trace 10) /\ nth_error trace i = nth_error trace (i + L).
Proof. exists [1;2;3;1;2;3;1;2]%N, 0, 3, 2. vm_compute. split; [right; left; reflexivity|reflexivity]. Qed.
Print Assumptions C21_left_maximal_refuted.

(** a b x a b a b contains abab at 3, but nothing is reported: the block ab was already visited at 0. *)
Theorem C21_all_repetitions_found_refuted :
  exists trace, repeated trace 3 2 2 /\ maximal_tandem_arrays_of_trace trace 10 = [].
Proof.
  exists [1;2;9;1;2;1;2]%N. split; [|vm_compute; reflexivity]. split; [cbn; lia|]. intros [|[|k]] Hk; [reflexivity|reflexivity|lia].
Qed.
Print Assumptions C21_all_repetitions_found_refuted.

Theorem C22_primitive_exact :
  forall traces max n ts arrays prims,
    nth_error traces n = Some ts ->
    nth_error (find_maximal_tandem_arrays traces max) n = Some arrays ->
    nth_error (find_primitive_tandem_arrays traces max) n = Some prims ->
    forall a, In a prims <-> In a arrays /\ forall c, 2 <= c -> 2 * c <= ta_length a + 1 -> ~ repeated ts (ta_first_pos a) c 2.
Proof. exact primitive_exact_proof. Qed.
Print Assumptions C22_primitive_exact.

Theorem C22_primitive_block_is_no_power :
  forall traces max n ts prims,
    nth_error traces n = Some ts -> nth_error (find_primitive_tandem_arrays traces max) n = Some prims ->
    forall a, In a prims -> forall c k, 2 <= c -> 2 <= k -> k * c = ta_length a ->
      ~ repeated (piece ts (ta_first_pos a) (ta_length a)) 0 c k.
Proof. exact primitive_not_power_proof. Qed.
Print Assumptions C22_primitive_block_is_no_power.

(** abab abab is dropped, abc abc is kept. *)
Example C22_case : find_primitive_tandem_arrays [[1;2;1;2;1;2;1;2;7;1;2;3;1;2;3]%N] 10 =
  [[mkTandem 0 2 4; mkTandem 1 2 3; mkTandem 9 3 2]].
Proof. vm_compute. reflexivity. Qed.

(** ababc ababc is dropped although its block ababc is not a repetition; aa aa is kept although aa is. *)
Theorem C22_drops_only_powers_refuted :
  exists trace, In (mkTandem 0 5 2) (maximal_tandem_arrays_of_trace trace 10) /\
    (forall c k, 1 <= c -> 2 <= k -> k * c = 5 -> ~ repeated (piece trace 0 5) 0 c k) /\
    forall prims, nth_error (find_primitive_tandem_arrays [trace] 10) 0 = Some prims -> ~ In (mkTandem 0 5 2) prims.
Proof.
  exists [1;2;1;2;3;1;2;1;2;3]%N. split; [vm_compute; auto|]. split.
  - intros c k Hc Hk E [_ H]. assert (c = 1 /\ k = 5) as [-> ->] by (destruct k as [|[|[|[|[|[|k]]]]]]; lia). specialize (H 1 ltac:(lia)). discriminate H.
  - intros prims E. vm_compute in E. injection E as <-. cbn. intuition discriminate.
Qed.
Print Assumptions C22_drops_only_powers_refuted.

Theorem C22_kept_block_with_period_one_refuted :
  exists trace prims, nth_error (find_primitive_tandem_arrays [trace] 10) 0 = Some prims /\ In (mkTandem 0 2 2) prims /\
    repeated (piece trace 0 2) 0 1 2.
Proof.
  exists [1;1;1;1]%N. eexists. split; [vm_compute; reflexivity|]. split; [left; reflexivity|]. split; [cbn; lia|].
  intros [|[|k]] Hk; [reflexivity|reflexivity|lia].
Qed.
Print Assumptions C22_kept_block_with_period_one_refuted.

Theorem C23_super_maximal_exact :
  forall trace repeats, (forall r, In r repeats -> block trace r <> []) ->
  forall r, In r (super_maximal_of_trace trace repeats) <->
    exists i, nth_error repeats i = Some r /\
      forall j r', j <> i -> nth_error repeats j = Some r' -> ~ inside (block trace r) (block trace r').
Proof. exact super_maximal_proof. Qed.
Print Assumptions C23_super_maximal_exact.

Theorem C23_antichain :
  forall trace repeats, (forall r, In r repeats -> block trace r <> []) ->
  forall r r', In r (super_maximal_of_trace trace repeats) -> In r' (super_maximal_of_trace trace repeats) ->
    inside (block trace r) (block trace r') -> r = r'.
Proof. exact super_maximal_antichain_proof. Qed.
Print Assumptions C23_antichain.

Theorem C23_every_repeat_is_inside_a_super_maximal_one :
  forall trace repeats, (forall r, In r repeats -> block trace r <> []) -> NoDup (map (block trace) repeats) ->
  forall r, In r repeats -> exists r', In r' (super_maximal_of_trace trace repeats) /\ inside (block trace r) (block trace r').
Proof. exact super_maximal_cover_proof. Qed.
Print Assumptions C23_every_repeat_is_inside_a_super_maximal_one.

Example C23_case : super_maximal_of_trace [1;2;3;9;1;2;3;8;2;5;2]%N [mkSub 0 3; mkSub 1 1; mkSub 8 2] = [mkSub 0 3; mkSub 8 2].
Proof. vm_compute. reflexivity. Qed.
Example C23_case_hyps : let t := [1;2;3;9;1;2;3;8;2;5;2]%N in let rs := [mkSub 0 3; mkSub 1 1; mkSub 8 2] in
  (forall r, In r rs -> block t r <> []) /\ NoDup (map (block t) rs).
Proof. cbv zeta. split; [intros r [<-|[<-|[<-|[]]]]; discriminate|]. repeat constructor; cbn; intuition discriminate. Qed.

Theorem C24_repeat_sets_exact :
  forall traces subs, collision_free traces subs ->
  exists l, create_repeat_sets traces subs = map fst l /\
    (forall x, In x l <-> exists p q, all_patterns 0 (combine subs traces) = p ++ x :: q /\ forall y, In y p -> ~ same_set (snd y) (snd x)).
Proof. exact repeat_sets_exact_proof. Qed.
Print Assumptions C24_repeat_sets_exact.

(** Holds even with hash collisions. *)
Theorem C24_sets_distinct :
  forall traces subs,
  exists l, create_repeat_sets traces subs = map fst l /\ incl l (all_patterns 0 (combine subs traces)) /\
    forall i j x y, i <> j -> nth_error l i = Some x -> nth_error l j = Some y -> ~ same_set (snd x) (snd y).
Proof. exact repeat_sets_distinct_proof. Qed.
Print Assumptions C24_sets_distinct.

Theorem C24_every_pattern_represented :
  forall traces subs, collision_free traces subs ->
  forall p, In p (all_patterns 0 (combine subs traces)) ->
  exists r, In r (create_repeat_sets traces subs) /\ exists t, In (r, t) (all_patterns 0 (combine subs traces)) /\ same_set t (snd p).
Proof. exact repeat_sets_covered_proof. Qed.
Print Assumptions C24_every_pattern_represented.

(** ab at trace 0, ba and abc at trace 1: ba is not repeated. *)
Example C24_case : create_repeat_sets [[1;2;1;2]; [2;1;3]]%N [[mkSub 0 2; mkSub 1 3]; [mkSub 0 2; mkSub 0 3]] =
  [mkRS 0 2 0; mkRS 0 3 1].
Proof. vm_compute. reflexivity. Qed.
Example C24_case_collision_free : collision_free [[1;2;1;2]; [2;1;3]]%N [[mkSub 0 2; mkSub 1 3]; [mkSub 0 2; mkSub 0 3]].
Proof. intros x y Hx Hy. cbn in Hx, Hy. repeat (destruct Hx as [<-|Hx]; [repeat (destruct Hy as [<-|Hy]; [vm_compute; intros; first [reflexivity|discriminate]|]); destruct Hy|]); destruct Hx. Qed.
