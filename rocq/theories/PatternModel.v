(** Model of legacy/analysis/patterns/event_log_patterns.py 18-162: tandem arrays, super-maximal
    repeats, repeat sets; and of patterns/util.py 43-86 (hash traces).  A trace is the list of the
    hashes of its events' classes. *)
From Verif Require Import Py HashModel.

(** patterns_models.py 9-11 and common_models.py 24-27. *)
Record tandem_info := mkTandem { ta_first_pos : nat; ta_length : nat; ta_repeat_count : nat }.

(** range(a, b).  legacy/analysis/patterns/event_log_patterns.py 31-32, 56, 83. *)
Definition range (a b : nat) : list nat := seq a (b - a).

(** legacy/analysis/patterns/event_log_patterns.py 55-59: trace[current_index + i] == trace[start_index + i] for all i in range(length);
    all indices are in range here because of the test in line 52. *)
Definition same_block (trace : list N) (start_index current_index length : nat) : bool :=
  forallb (fun i => match nth_error trace (current_index + i), nth_error trace (start_index + i) with
                    | Some a, Some b => N.eqb a b
                    | _, _ => false
                    end) (range 0 length).

(** legacy/analysis/patterns/event_log_patterns.py 51-65, for length >= 1; the loop runs at most len(trace) times, [fuel] is never used up
    when it starts with len(trace). *)
Fixpoint count_repeats (fuel : nat) (trace : list N) (start_index length current_index number_of_repeats : nat) : nat :=
  match fuel with
  | O => number_of_repeats
  | S fuel' =>
      if List.length trace <=? current_index + length - 1 then number_of_repeats
      else if same_block trace start_index current_index length then
        count_repeats fuel' trace start_index length (current_index + length) (number_of_repeats + 1)
      else number_of_repeats
  end.

(** legacy/analysis/patterns/event_log_patterns.py 47-70. *)
Definition try_extract_tandem_array (trace : list N) (start_index length : nat) : option tandem_info :=
  let n := count_repeats (List.length trace) trace start_index length (start_index + length) 1 in
  if 1 <? n then Some (mkTandem start_index length n) else None.

(** legacy/analysis/patterns/event_log_patterns.py 33-40: one window; the state is (visited, tandem_arrays). *)
Definition tandem_step (trace : list N) (st : list N * list tandem_info) (w : nat * nat) : list N * list tandem_info :=
  let '(visited, arrays) := st in
  let '(length, i) := w in
  let h := collection_poly_hash_slice trace i (i + length) in
  if existsb (N.eqb h) visited then st
  else (h :: visited,
        match try_extract_tandem_array trace i length with Some a => arrays ++ [a] | None => arrays end).

(** The pairs visited by the loops of legacy/analysis/patterns/event_log_patterns.py 31-32. *)
Definition windows (n : nat) (max_tandem_array_length : Z) : list (nat * nat) :=
  flat_map (fun length => map (fun i => (length, i)) (range 0 (n - length)))
           (range 2 (Z.to_nat max_tandem_array_length)).

(** legacy/analysis/patterns/event_log_patterns.py 28-42 for one trace. *)
Definition maximal_tandem_arrays_of_trace (trace : list N) (max_tandem_array_length : Z) : list tandem_info :=
  snd (fold_left (tandem_step trace) (windows (length trace) max_tandem_array_length) ([], [])).

(** legacy/analysis/patterns/event_log_patterns.py 25-44. *)
Definition find_maximal_tandem_arrays (traces : list (list N)) (max_tandem_array_length : Z) : list (list tandem_info) :=
  map (fun t => maximal_tandem_arrays_of_trace t max_tandem_array_length) traces.

(** legacy/analysis/patterns/event_log_patterns.py 82-86; int((length + 1) / 2 + 1) is (length + 3) / 2 rounded down. *)
Definition is_primitive_array (trace : list N) (a : tandem_info) : bool :=
  forallb (fun current_length => match try_extract_tandem_array trace (ta_first_pos a) current_length with
                                 | Some _ => false | None => true end)
          (range 2 ((ta_length a + 3) / 2)).

(** legacy/analysis/patterns/event_log_patterns.py 73-93. *)
Definition find_primitive_tandem_arrays (traces : list (list N)) (max_tandem_array_length : Z) : list (list tandem_info) :=
  map (fun p => filter (is_primitive_array (snd p)) (fst p))
      (combine (find_maximal_tandem_arrays traces max_tandem_array_length) traces).

(** common_models.py 24-27, patterns_models.py 14-16: first position and length. *)
Record sub_array := mkSub { sa_first_pos : nat; sa_length : nat }.

(** trace[first:first+length].  legacy/analysis/patterns/event_log_patterns.py 125, 153. *)
Definition slice (trace : list N) (first length : nat) : list N := firstn length (skipn first trace).

(** Equality of lists of ints, for the suffix tree's find_all of legacy/analysis/patterns/event_log_patterns.py 130. *)
Definition list_eqb (a b : list N) : bool := if list_eq_dec N.eq_dec a b then true else false.

(** All positions at which [s] occurs in [t] (non-empty s).  Needed for find_all, legacy/analysis/patterns/event_log_patterns.py 130, 266. *)
Definition occurrences (s t : list N) : list nat :=
  filter (fun i => list_eqb (slice t i (length s)) s) (range 0 (length t)).

(** suffix_tree Tree(dict).find_all(s): one entry per string of the dict and position at which s
    occurs (the library itself is not modelled, this is what it computes for non-empty s).  legacy/analysis/patterns/event_log_patterns.py 127-130. *)
Definition find_all (strings : dict nat (list N)) (s : list N) : list (nat * nat) :=
  flat_map (fun kv => map (fun p => (fst kv, p)) (occurrences s (snd kv))) strings.

(** legacy/analysis/patterns/event_log_patterns.py 122-131 for one trace; the maximal repeats (from the suffix tree library) are given. *)
Definition super_maximal_of_trace (trace : list N) (repeats : list sub_array) : list sub_array :=
  let index_to_repeats := combine (seq 0 (length repeats)) (map (fun r => slice trace (sa_first_pos r) (sa_length r)) repeats) in
  flat_map (fun kv => if length (find_all index_to_repeats (snd kv)) =? 1
                      then match nth_error repeats (fst kv) with Some r => [r] | None => [] end
                      else []) index_to_repeats.

(** legacy/analysis/patterns/event_log_patterns.py 119-135; [maximal_repeats] is Tree({'Trace': trace}).maximal_repeats() as sub arrays. *)
Definition find_super_maximal_repeats (maximal_repeats : list N -> list sub_array) (traces : list (list N)) : list (list sub_array) :=
  map (fun t => super_maximal_of_trace t (maximal_repeats t)) traces.

(** patterns_models.py 19-21. *)
Record repeat_set := mkRS { rs_first_pos : nat; rs_length : nat; rs_trace_index : nat }.

(** sorted(set(l)) for ints: insertion into a strictly increasing list.  legacy/analysis/patterns/event_log_patterns.py 153. *)
Fixpoint insert_N (x : N) (l : list N) : list N :=
  match l with
  | [] => [x]
  | y :: r => if N.ltb x y then x :: l else if N.eqb x y then l else y :: insert_N x r
  end.
(** legacy/analysis/patterns/event_log_patterns.py 153. *)
Definition sorted_set (l : list N) : list N := fold_right insert_N [] l.

(** legacy/analysis/patterns/event_log_patterns.py 150-159: the inner loop. *)
Definition repeat_sets_trace (index : nat) (trace : list N) (acc : dict N repeat_set) (subs : list sub_array) : dict N repeat_set :=
  fold_left (fun acc s =>
    let h := collection_poly_hash (sorted_set (slice trace (sa_first_pos s) (sa_length s))) in
    if dmem N.eq_dec acc h then acc
    else dset N.eq_dec acc h (mkRS (sa_first_pos s) (sa_length s) index)) subs acc.

(** legacy/analysis/patterns/event_log_patterns.py 147-160. *)
Fixpoint repeat_sets_loop (index : nat) (pairs : list (list sub_array * list N)) (acc : dict N repeat_set) : dict N repeat_set :=
  match pairs with
  | [] => acc
  | (subs, trace) :: pairs' => repeat_sets_loop (S index) pairs' (repeat_sets_trace index trace acc subs)
  end.

(** legacy/analysis/patterns/event_log_patterns.py 145-162. *)
Definition create_repeat_sets (traces : list (list N)) (subs : list (list sub_array)) : list repeat_set :=
  dvalues (repeat_sets_loop 0 (combine subs traces) []).
