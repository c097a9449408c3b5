(** Vocabulary for the position entropies. *)
From Verif Require Import Py InfoSpec.

(** [n] is the name at index [j]. *)
Definition is_at (n : pystr) (j : nat) (t : list pystr) : bool :=
  match nth_error t j with Some m => eqs n m | None => false end.

(** The number of traces whose j-th remaining event (after dropping ignored ones) is [n]. *)
Definition traces_with_at (log : list (list pystr)) (ign : option (list pystr)) (n : pystr) (j : nat) : nat :=
  how_many (fun t => is_at n j (kept ign t)) log.

(** The number of traces that keep at least one event. *)
Definition non_empty_traces (log : list (list pystr)) (ign : option (list pystr)) : nat :=
  how_many (fun t => match kept ign t with [] => false | _ => true end) log.

(** Length of the longest trace after dropping ignored events. *)
Definition longest (log : list (list pystr)) (ign : option (list pystr)) : nat :=
  list_max (map (fun t => length (kept ign t)) log).

(** The vector of these numbers, one per position. *)
Definition position_counts (log : list (list pystr)) (ign : option (list pystr)) (n : pystr) : list nat :=
  map (traces_with_at log ign n) (seq 0 (longest log ign)).

(** The log with the given names taken out and the traces emptied by that (or already empty) dropped. *)
Definition without (log : list (list pystr)) (names : list pystr) : list (list pystr) :=
  filter (fun t => match t with [] => false | _ => true end) (map (kept (Some names)) log).
