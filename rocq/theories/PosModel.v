(** Model of the position entropies, legacy/analysis/event_log_analysis_entropy.py 116-284.
    Both variants end by handing a vector of per-position counts and the number of non-empty
    traces to the same numpy expression (lines 201-202, 221-224, 260-261); that expression is the
    Section variable [finish] here, over an arbitrary type of results (its floating point
    behaviour is not modelled). *)
From Coq Require Import Sorting.
From Verif Require Import Py InfoModel.

(** PositionEntropyIgnoredEvents legacy/analysis/event_log_analysis_entropy.py 116-119; the set as the list of its elements. *)
Record ignored_info := mkIgn { ig_events : list pystr; ig_counts : list trace_counts }.

(** legacy/analysis/event_log_analysis_entropy.py 121-127 (Python ints, so Z). *)
Definition ignored_max_vector_length (ig : ignored_info) : Z :=
  fold_left (fun m tc =>
    let removed := fold_left Z.add (map (fun x => match dget str_eq_dec (tc_counts tc) x with
                                                 | Some c => Z.of_nat c | None => 0%Z end) (ig_events ig)) 0%Z in
    Z.max m (Z.of_nat (tc_overall tc) - removed)) (ig_counts ig) 0%Z.

(** max of a list: ValueError when empty.  legacy/analysis/event_log_analysis_entropy.py 231. *)
Definition py_max (l : list Z) : result Z :=
  match l with [] => Err ValueError | x :: xs => Ok (fold_left Z.max xs x) end.

(** legacy/analysis/event_log_analysis_entropy.py 227-231. *)
Definition max_vector_length (log : names_log) (ig : option ignored_info) : result Z :=
  match ig with
  | Some i => Ok (ignored_max_vector_length i)
  | None => py_max (map (fun t => Z.of_nat (length t)) log)
  end.

(** legacy/analysis/event_log_analysis_entropy.py 130-133. *)
Record trace_positions := mkTP { tp_positions : dict pystr (list nat); tp_length : nat }.

(** legacy/analysis/event_log_analysis_entropy.py 145-150. *)
Fixpoint positions_from (i : nat) (t : list pystr) (d : dict pystr (list nat)) : dict pystr (list nat) :=
  match t with
  | [] => d
  | n :: t' => positions_from (S i) t' (dpush str_eq_dec d n i)
  end.

(** legacy/analysis/event_log_analysis_entropy.py 141-154. *)
Definition create_events_positions (log : names_log) : list trace_positions :=
  map (fun t => mkTP (positions_from 0 t []) (length t)) log.

(** Python list indexing: negative indices count from the end, IndexError outside.  legacy/analysis/event_log_analysis_entropy.py 198, 251. *)
Definition py_index (len : nat) (i : Z) : result nat :=
  let j := (if (i <? 0)%Z then i + Z.of_nat len else i)%Z in
  if ((0 <=? j) && (j <? Z.of_nat len))%Z then Ok (Z.to_nat j) else Err IndexError.

(** Assignment to an element, legacy/analysis/event_log_analysis_entropy.py 198, 251. *)
Definition upd {A} (l : list A) (i : nat) (f : A -> A) : list A :=
  firstn i l ++ match skipn i l with [] => [] | x :: r => f x :: r end.

(** v[i] += 1.  legacy/analysis/event_log_analysis_entropy.py 198. *)
Definition incr_at (v : list nat) (i : Z) : result (list nat) :=
  bind (py_index (length v) i) (fun j => Ok (upd v j S)).
(** legacy/analysis/event_log_analysis_entropy.py 251. *)
Definition set_one (v : list nat) (i : Z) : result (list nat) :=
  bind (py_index (length v) i) (fun j => Ok (upd v j (fun _ => 1))).

(** [0] * n: empty for n <= 0.  legacy/analysis/event_log_analysis_entropy.py 165, 238. *)
Definition zeros (n : Z) : list nat := repeat 0 (Z.to_nat n).

(** list.sort() on positions, as an insertion sort.  legacy/analysis/event_log_analysis_entropy.py 187. *)
Fixpoint insert_nat (x : nat) (l : list nat) : list nat :=
  match l with [] => [x] | y :: r => if x <=? y then x :: y :: r else y :: insert_nat x r end.
(** legacy/analysis/event_log_analysis_entropy.py 187. *)
Definition sort_nat (l : list nat) : list nat := fold_right insert_nat [] l.

(** legacy/analysis/event_log_analysis_entropy.py 195-196: advance ignored_idx while the ignored position is smaller; [rest] are the
    ignored positions from ignored_idx on. *)
Fixpoint skip_smaller (p : nat) (rest : list nat) (ignored_idx : nat) : list nat * nat :=
  match rest with
  | q :: rest' => if q <? p then skip_smaller p rest' (S ignored_idx) else (rest, ignored_idx)
  | [] => (rest, ignored_idx)
  end.

(** legacy/analysis/event_log_analysis_entropy.py 189-199. The outer while ends when our_idx reaches the end (condition or break). *)
Fixpoint two_pointers (ours rest : list nat) (ignored_idx : nat) (probs : list nat) : result (list nat) :=
  match ours with
  | [] => Ok probs
  | p :: ours' =>
      let '(rest', idx) := skip_smaller p rest ignored_idx in
      bind (incr_at probs (Z.of_nat p - Z.of_nat idx)) (fun probs' => two_pointers ours' rest' idx probs')
  end.

(** legacy/analysis/event_log_analysis_entropy.py 169-199: one trace; state is (probabilities, non_empty_traces_count). *)
Definition fast_trace (event_name : pystr) (ig : option ignored_info)
  (st : list nat * nat) (tp : trace_positions) : result (list nat * nat) :=
  let '(probs, non_empty) := st in
  let ignored := match ig with
                 | None => []
                 | Some i => flat_map (fun x => match dget str_eq_dec (tp_positions tp) x with
                                                | Some l => l | None => [] end) (ig_events i)
                 end in
  if length ignored =? tp_length tp then Ok st
  else
    match dget str_eq_dec (tp_positions tp) event_name with
    | None => Ok (probs, S non_empty)
    | Some ours => bind (two_pointers ours (sort_nat ignored) 0 probs) (fun probs' => Ok (probs', S non_empty))
    end.

(** legacy/analysis/event_log_analysis_entropy.py 242-258: one trace of the slow variant; [index] counts kept events. *)
Fixpoint slow_events (event_name : pystr) (ig : option ignored_info) (t : list pystr)
  (v : list nat) (index : nat) (empty_trace : bool) : result (list nat * bool) :=
  match t with
  | [] => Ok (v, empty_trace)
  | n :: t' =>
      if is_ignored (option_map ig_events ig) n then slow_events event_name ig t' v index empty_trace
      else bind (if str_eqb n event_name then set_one v (Z.of_nat index) else Ok v)
                (fun v' => slow_events event_name ig t' v' (S index) false)
  end.

(** np.sum(vectors, axis=0) for vectors of one length.  legacy/analysis/event_log_analysis_entropy.py 260. *)
Definition add_vec (a b : list nat) : list nat := map (fun p => fst p + snd p) (combine a b).

(** legacy/analysis/event_log_analysis_entropy.py 242-258. *)
Definition slow_trace (event_name : pystr) (ig : option ignored_info) (len : Z)
  (st : list (list nat) * nat) (t : list pystr) : result (list (list nat) * nat) :=
  let '(vectors, non_empty) := st in
  bind (slow_events event_name ig t (zeros len) 0 true) (fun r =>
    Ok (vectors ++ [fst r], if snd r then non_empty else S non_empty)).

Section Position.
  Context {F : Type}.
  Variable finish : list nat -> nat -> F.   (* lines 201-202 / 260-261 and 221-224 *)

  (** legacy/analysis/event_log_analysis_entropy.py 157-203; [cached]: optional precomputed positions. *)
  Definition position_entropy_fast (log : names_log) (event_name : pystr) (ig : option ignored_info)
    (cached : option (list trace_positions)) : result F :=
    let positions := match cached with Some c => c | None => create_events_positions log end in
    bind (max_vector_length log ig) (fun len =>
    bind (loopM (fast_trace event_name ig) positions (zeros len, 0)) (fun st =>
    Ok (finish (fst st) (snd st)))).

  (** legacy/analysis/event_log_analysis_entropy.py 234-261; the sum of no vectors is taken to be the zero vector. *)
  Definition position_entropy (log : names_log) (event_name : pystr) (ig : option ignored_info) : result F :=
    bind (max_vector_length log ig) (fun len =>
    bind (loopM (slow_trace event_name ig len) log ([], 0)) (fun st =>
    Ok (finish (fold_left add_vec (fst st) (zeros len)) (snd st)))).

  (** legacy/analysis/event_log_analysis_entropy.py 206-218 *)
  Definition position_entropies_fast (log : names_log) (ig : option ignored_info)
    (cached : option (list trace_positions)) : result (dict pystr F) :=
    let positions := match cached with Some c => c | None => create_events_positions log end in
    loopM (fun d item => bind (position_entropy_fast log (fst item) ig (Some positions))
                              (fun x => Ok (dset str_eq_dec d (fst item) x)))
      (li_events_count (create_log_information log (option_map ig_events ig) true)) [].

  (** legacy/analysis/event_log_analysis_entropy.py 264-272 *)
  Definition position_entropies (log : names_log) (ig : option ignored_info) : result (dict pystr F) :=
    loopM (fun d item => bind (position_entropy log (fst item) ig)
                              (fun x => Ok (dset str_eq_dec d (fst item) x)))
      (li_events_count (create_log_information log (option_map ig_events ig) true)) [].
End Position.
