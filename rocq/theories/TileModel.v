(** Model of legacy/analysis/patterns/event_log_patterns.py 713-736: add_all_patterns. *)
From Verif Require Import Py HashModel PatternModel.

(** suffix_tree Tree(dict).find(s) for non-empty s: whether s occurs in one of the strings (the
    library itself is not modelled, this is what it computes).  legacy/analysis/patterns/event_log_patterns.py 728. *)
Definition tree_find (strings : list (list N)) (s : list N) : bool :=
  existsb (fun p => negb (length (occurrences s p) =? 0)) strings.

(** legacy/analysis/patterns/event_log_patterns.py 728: trace[current_start:index]. *)
Definition run_of (trace : list N) (current_start index : nat) : list N :=
  firstn (index - current_start) (skipn current_start trace).

(** legacy/analysis/patterns/event_log_patterns.py 727-732: while index < len(trace); [steps] is len(trace) - index. *)
Fixpoint tile_loop (steps : nat) (strings : list (list N)) (trace : list N) (index current_start : nat) : list sub_array :=
  match steps with
  | O => []
  | S steps' =>
      if negb (tree_find strings (run_of trace current_start index)) then
        mkSub current_start (index - current_start) :: tile_loop steps' strings trace (S index) index
      else tile_loop steps' strings trace (S index) current_start
  end.

(** legacy/analysis/patterns/event_log_patterns.py 716-734 for one trace: the strings of the tree are the slices of the patterns; the keys
    str(index) are distinct, so no string is lost. *)
Definition add_all_patterns_trace (trace : list N) (trace_patterns : list sub_array) : list sub_array :=
  let strings := map (fun p => slice trace (sa_first_pos p) (sa_length p)) trace_patterns in
  tile_loop (length trace - 1) strings trace 1 0.

(** legacy/analysis/patterns/event_log_patterns.py 713-736. *)
Definition add_all_patterns (log : list (list N)) (patterns : list (list sub_array)) : list (list sub_array) :=
  map (fun tp => add_all_patterns_trace (fst tp) (snd tp)) (combine log patterns).
