(** Vocabulary for near-super-maximal repeats. *)
From Verif Require Import Py PatternModel PatternSpec.

(** The classes of repeat r stand at position i of the trace. *)
Definition occurs_at (trace : list N) (r : sub_array) (i : nat) : Prop :=
  i + sa_length r <= length trace /\ piece trace i (sa_length r) = block trace r.

(** The occurrence of r at i lies in no occurrence of another repeat. *)
Definition free_at (trace : list N) (repeats : list sub_array) (r : sub_array) (i : nat) : Prop :=
  occurs_at trace r i /\
  forall r' j, In r' repeats -> occurs_at trace r' j -> j <= i -> i + sa_length r <= j + sa_length r' -> r' = r.

(** The repeats lie inside the trace, are not empty and stand for different sequences. *)
Definition proper_repeats (trace : list N) (repeats : list sub_array) : Prop :=
  (forall r, In r repeats -> 0 < sa_length r /\ sa_first_pos r + sa_length r <= length trace) /\
  NoDup (map (block trace) repeats).
