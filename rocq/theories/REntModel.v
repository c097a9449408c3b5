(** Entropies of the events of a log in the backend: src/rust/ficus_backend/src/features/analysis/entropy/{shared,pos_entropy,
    pos_entropy_fast,dfg_entropy}.rs.  A log is the list of the names of its events, the set of ignored names a list without
    repetition, [ord] the order in which a hash table is walked over (RInfoModel).  Numbers f64 are reals (rounding, NaN and
    infinities are not modelled); the vectors of counts, which are f64 in the code, hold natural numbers until they are divided.
    Overflow of usize is not modelled, a difference below 0 is a panic. *)
From Coq Require Import Reals.
From Verif Require Import Py InfoModel ReplayModel PosModel EntropyModel RInfoModel.
Open Scope nat_scope.

(** a - b of usize, features/analysis/entropy/shared.rs 37, pos_entropy_fast.rs 71. *)
Definition usize_sub (a b : nat) : result nat := if b <=? a then Ok (a - b) else rpanic.
(** v[i] += 1, features/analysis/entropy/pos_entropy.rs 37, pos_entropy_fast.rs 71; out of bounds is a panic. *)
Definition r_incr (v : list nat) (i : nat) : result (list nat) := if i <? length v then Ok (upd v i S) else rpanic.

(** EventSequenceInfo::new, event_log/core/event/events_holder.rs 132-147 and utils/hash_map_utils.rs 4-13, only the table of counts. *)
Definition r_events_counts (t : list pystr) : dict pystr nat := fold_left (increase_in_int_map str_eq_dec) t [].
(** EventsPositions::new, event_log/core/event/events_holder.rs 154-169 and utils/hash_map_utils.rs 26-35. *)
Fixpoint r_positions (index : nat) (t : list pystr) (d : dict pystr (list nat)) : dict pystr (list nat) :=
  match t with [] => d | n :: t' => r_positions (index + 1) t' (dpush str_eq_dec d n index) end.

(** calculate_vector_length, features/analysis/entropy/shared.rs 43-48; max of nothing is None, which is unwrapped. *)
Definition r_vector_length (log : names_log) : result nat :=
  match map (@length pystr) log with [] => rpanic | x :: l => Ok (fold_left Nat.max l x) end.

(** The loop over the positions of the event, features/analysis/entropy/pos_entropy_fast.rs 57-73; [rest] are the ignored
    positions from ignored_idx on. *)
Fixpoint r_two_pointers (ours rest : list nat) (ignored_idx : nat) (probabilities : list nat) : result (list nat) :=
  match ours with
  | [] => Ok probabilities
  | p :: ours' =>
      let '(rest', idx) := skip_smaller p rest ignored_idx in
      bind (usize_sub p idx) (fun i => bind (r_incr probabilities i) (fun probs => r_two_pointers ours' rest' idx probs))
  end.
(** The events of one trace, features/analysis/entropy/pos_entropy.rs 23-41. *)
Fixpoint r_slow_events (event_name : pystr) (ign : option (list pystr)) (t : list pystr) (v : list nat) (index : nat)
  (empty_trace : bool) : result (list nat * bool) :=
  match t with
  | [] => Ok (v, empty_trace)
  | n :: t' =>
      if is_ignored ign n then r_slow_events event_name ign t' v index empty_trace
      else bind (if str_eqb n event_name then r_incr v index else Ok v) (fun v =>
           r_slow_events event_name ign t' v (index + 1) false)
  end.
(** One trace, features/analysis/entropy/pos_entropy.rs 22-46. *)
Definition r_slow_trace (event_name : pystr) (ign : option (list pystr)) (st : list nat * nat) (t : list pystr) : result (list nat * nat) :=
  bind (r_slow_events event_name ign t (fst st) 0 true) (fun r => Ok (fst r, if snd r then snd st else snd st + 1)).

(** calculate_pos_entropy, features/analysis/entropy/shared.rs 50-72: the counts are divided by the number of traces and the
    mean of -log2 p / log2 (number of traces) over those which are not 0 is taken; x / 0 is not what it is in the code. *)
Definition r_pos_entropy (counts : list nat) (traces_count : nat) : R :=
  let probabilities := map (fun c => INR c / INR traces_count)%R counts in
  let positive := filter (fun p => if Req_EM_T p 0 then false else true) probabilities in
  (fold_left Rplus (map (fun p => - log2 p / log2 (INR traces_count)) positive) 0 / INR (length positive))%R.

Section Ordered.
  Variable ord : nat -> forall A : Type, list A -> list A.

  (** calculate_vector_length_with_ignored_events, features/analysis/entropy/shared.rs 21-41. *)
  Definition r_vector_length_ignored (log : names_log) (ignored : list pystr) : result nat :=
    loopM (fun max t =>
      let counts := r_events_counts t in
      let num_of_ignored := fold_left (fun s n => match dget str_eq_dec counts n with Some c => s + c | None => s end)
                                      (ord 10 _ ignored) 0 in
      bind (usize_sub (length t) num_of_ignored) (fun k => Ok (Nat.max max k))) log 0.
  (** calculate_max_vector_length, features/analysis/entropy/shared.rs 11-19. *)
  Definition r_max_vector_length (log : names_log) (ign : option (list pystr)) : result nat :=
    match ign with Some ignored => r_vector_length_ignored log ignored | None => r_vector_length log end.

  (** One trace, features/analysis/entropy/pos_entropy_fast.rs 27-74. *)
  Definition r_fast_trace (name : pystr) (ign : option (list pystr)) (st : list nat * nat) (t : list pystr) : result (list nat * nat) :=
    let positions := r_positions 0 t [] in
    let ignored := match ign with
                   | None => []
                   | Some set => flat_map (fun x => match dget str_eq_dec positions x with Some l => l | None => [] end) (ord 11 _ set)
                   end in
    if length ignored =? length t then Ok st
    else
      match dget str_eq_dec positions name with
      | None => Ok (fst st, snd st + 1)
      | Some ours => bind (r_two_pointers ours (sort_nat ignored) 0 (fst st)) (fun probs => Ok (probs, snd st + 1))
      end.

  Section Result.
    Context {F : Type}.
    Variable finish : list nat -> nat -> F.   (* calculate_pos_entropy, features/analysis/entropy/shared.rs 50-72 *)

    (** calculate_pos_entropy_for_event_fast, features/analysis/entropy/pos_entropy_fast.rs 17-77. *)
    Definition r_pos_entropy_fast (log : names_log) (name : pystr) (ign : option (list pystr)) : result F :=
      bind (r_max_vector_length log ign) (fun len =>
      bind (loopM (r_fast_trace name ign) log (repeat 0 len, 0)) (fun st => Ok (finish (fst st) (snd st)))).
    (** calculate_pos_entropy_for_event, features/analysis/entropy/pos_entropy.rs 14-49. *)
    Definition r_pos_entropy_slow (log : names_log) (name : pystr) (ign : option (list pystr)) : result F :=
      bind (r_max_vector_length log ign) (fun len =>
      bind (loopM (r_slow_trace name ign) log (repeat 0 len, 0)) (fun st => Ok (finish (fst st) (snd st)))).

    (** calculate_entropies, features/analysis/entropy/shared.rs 74-97. *)
    Definition r_calculate_entropies (log : names_log) (ign : option (list pystr))
      (calculator : names_log -> pystr -> option (list pystr) -> result F) : result (dict pystr F) :=
      loopM (fun entropies name =>
        if is_ignored ign name then Ok entropies
        else bind (calculator log name ign) (fun e => Ok (dset str_eq_dec entropies name e)))
        (r_all_event_classes ord 12 (r_create_from ord log false None)) [].
    (** calculate_pos_entropies_fast, features/analysis/entropy/pos_entropy_fast.rs 10-15. *)
    Definition r_pos_entropies_fast (log : names_log) (ign : option (list pystr)) : result (dict pystr F) :=
      r_calculate_entropies log ign r_pos_entropy_fast.
    (** calculate_pos_entropies, features/analysis/entropy/pos_entropy.rs 7-12. *)
    Definition r_pos_entropies (log : names_log) (ign : option (list pystr)) : result (dict pystr F) :=
      r_calculate_entropies log ign r_pos_entropy_slow.
  End Result.

  Open Scope R_scope.
  (** calculate_entropy, features/analysis/entropy/dfg_entropy.rs 100-109. *)
  Definition r_entropy (values : list R) : R :=
    fold_left (fun entropy value => if Req_EM_T value 0 then entropy else entropy - value * log2 value) values 0.
  (** calculate_dfg_entropy, features/analysis/entropy/dfg_entropy.rs 62-98; the names are taken from the table once. *)
  Definition r_dfg_entropy (info : rinfo) (dfr dpr : pystr -> pystr -> rinfo -> R) : dict pystr R :=
    let names := r_all_event_classes ord 13 info in
    fold_left (fun entropy name =>
      let dfr_vector := map (fun x => dfr name x info) (names ++ [fake_end_name]) in
      let dpr_vector := map (fun x => dpr name x info) (names ++ [fake_start_name]) in
      dset str_eq_dec entropy name (r_entropy dfr_vector + r_entropy dpr_vector)) names [].

  (** calculate_default_dfg_entropy, features/analysis/entropy/dfg_entropy.rs 39-60. *)
  Definition r_default_dfg_entropy (log : names_log) (ign : option (list pystr)) : dict pystr R :=
    r_dfg_entropy (r_create_from ord log true ign)
      (fun first second info => INR (r_directly_follows_count (ri_dfg info) first second) / INR (r_event_count info first))
      (fun first second info => INR (r_directly_follows_count (ri_dfg info) second first) / INR (r_event_count info first)).

  (** dfr_or_dpr_calculator, features/analysis/entropy/dfg_entropy.rs 15-20. *)
  Definition r_laplace (pair_count events_count event_count : nat) : R :=
    let alpha := 1 / INR event_count in
    let x := alpha + INR pair_count in
    let y := alpha * INR (events_count + 1) + INR event_count in
    x / y.
  (** event_classes_count, features/analysis/event_log_info.rs 192-194. *)
  Definition r_classes_count (info : rinfo) : nat := length (ri_classes info).
  (** calculate_laplace_dfg_entropy, features/analysis/entropy/dfg_entropy.rs 11-37. *)
  Definition r_laplace_dfg_entropy (log : names_log) (ign : option (list pystr)) : dict pystr R :=
    r_dfg_entropy (r_create_from ord log true ign)
      (fun first second info => r_laplace (r_directly_follows_count (ri_dfg info) first second) (r_classes_count info) (r_event_count info first))
      (fun first second info => r_laplace (r_directly_follows_count (ri_dfg info) second first) (r_classes_count info) (r_event_count info first)).
End Ordered.
