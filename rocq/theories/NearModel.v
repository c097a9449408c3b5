(** Model of _do_find_near_super_maximal_repeats, legacy/analysis/patterns/event_log_patterns.py
    255-288.  The suffix tree and the interval tree libraries are not modelled: [occurrences] is what
    find_all gives for one string, [envelop] what IntervalTree.envelop gives. *)
From Verif Require Import Py HashModel PatternModel.

(** intervaltree.Interval(begin, end, data).  Built in legacy/analysis/patterns/event_log_patterns.py 268-270. *)
Record interval := mkIv { iv_begin : nat; iv_end : nat; iv_data : nat }.
(** Equality of intervals, for [x in visited], legacy/analysis/patterns/event_log_patterns.py 277. *)
Definition iv_eq_dec : forall a b : interval, {a = b} + {a <> b}.
Proof. decide equality; apply Nat.eq_dec. Defined.

(** [x in visited].  legacy/analysis/patterns/event_log_patterns.py 277. *)
Definition iv_mem (x : interval) (l : list interval) : bool := if in_dec iv_eq_dec x l then true else false.

(** legacy/analysis/patterns/event_log_patterns.py 262-272: the intervals of all occurrences of all repeats.  They differ in the position or in
    the index, so adding them to the set of the interval tree loses none.  Simplification: repeats are
    not empty (addi refuses an empty interval). *)
Definition all_intervals (trace : list N) (repeats : list sub_array) : list interval :=
  flat_map (fun kr => map (fun start => mkIv start (start + sa_length (snd kr)) (fst kr))
                          (occurrences (slice trace (sa_first_pos (snd kr)) (sa_length (snd kr))) trace))
           (combine (seq 0 (length repeats)) repeats).

(** legacy/analysis/patterns/event_log_patterns.py 275: sorted(..., key = end - begin + 1, reverse=True), stable. *)
Fixpoint insert_longest (x : interval) (l : list interval) : list interval :=
  match l with
  | [] => [x]
  | y :: r => if iv_end y - iv_begin y <=? iv_end x - iv_begin x then x :: l else y :: insert_longest x r
  end.
(** legacy/analysis/patterns/event_log_patterns.py 275. *)
Definition sort_longest (l : list interval) : list interval := fold_right insert_longest [] l.

(** IntervalTree.envelop(begin, end): the intervals that lie inside.  legacy/analysis/patterns/event_log_patterns.py 282. *)
Definition envelop (l : list interval) (b e : nat) : list interval :=
  filter (fun x => (b <=? iv_begin x) && (iv_end x <=? e)) l.

(** legacy/analysis/patterns/event_log_patterns.py 276-283: one interval; the state is (visited, near_super_maximal_repeats_for_trace). *)
Definition near_step (all : list interval) (st : list interval * list nat) (x : interval) : list interval * list nat :=
  let '(visited, found) := st in
  if iv_mem x visited then st
  else (x :: envelop all (iv_begin x) (iv_end x) ++ visited,
        if existsb (Nat.eqb (iv_data x)) found then found else found ++ [iv_data x]).

Section Orders.
  (** Iteration orders of the set of intervals and of the set of indices. *)
  Variable interval_order : list interval -> list interval.
  Variable index_order : list nat -> list nat.

  (** legacy/analysis/patterns/event_log_patterns.py 259-286 for one trace, [repeats] being its maximal repeats. *)
  Definition near_super_maximal_of_trace (trace : list N) (repeats : list sub_array) : list sub_array :=
    let all := all_intervals trace repeats in
    let found := snd (fold_left (near_step all) (sort_longest (interval_order all)) ([], [])) in
    flat_map (fun i => match nth_error repeats i with Some r => [r] | None => [] end) (index_order found).

  (** legacy/analysis/patterns/event_log_patterns.py 255-288; [maximal_repeats] is Tree({'Trace': trace}).maximal_repeats() as sub arrays. *)
  Definition find_near_super_maximal_repeats (maximal_repeats : list N -> list sub_array) (traces : list (list N)) : list (list sub_array) :=
    map (fun t => near_super_maximal_of_trace t (maximal_repeats t)) traces.
End Orders.
