(** Vocabulary for the splitting of a trace by its patterns. *)
From Verif Require Import Py PatternModel PatternSpec.

(** The run of events from position a up to (not including) b is part of one of the patterns. *)
Definition part_of_pattern (trace : list N) (patterns : list sub_array) (a b : nat) : Prop :=
  exists p, In p patterns /\ inside (piece trace a (b - a)) (block trace p).

(** The first run from [a] that is no part of a pattern ends at [b]. *)
Definition first_break (trace : list N) (patterns : list sub_array) (a b : nat) : Prop :=
  a < b /\ ~ part_of_pattern trace patterns a b /\ forall j, a < j < b -> part_of_pattern trace patterns a j.

(** [pieces] split the trace from position [a] on: each piece runs to the first break, a break at
    the very end of the trace does not count, and nothing after the last break is reported. *)
Inductive tiles (trace : list N) (patterns : list sub_array) : nat -> list sub_array -> Prop :=
| tiles_tail a : (forall j, a < j < length trace -> part_of_pattern trace patterns a j) -> tiles trace patterns a []
| tiles_piece a b rest : b < length trace -> first_break trace patterns a b -> tiles trace patterns b rest ->
    tiles trace patterns a (mkSub a (b - a) :: rest).

(** Where the pieces end. *)
Definition total (pieces : list sub_array) : nat := list_sum (map sa_length pieces).
