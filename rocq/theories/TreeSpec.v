(** Vocabulary for inclusion forests. *)
From Verif Require Import Py PatternModel PatternSpec TreeModel.

Definition included (a b : list N) : Prop := forall x, In x a -> In x b.

(** All nodes of a tree, the root first. *)
Fixpoint nodes_of {D} (a : anode D) : list (anode D) :=
  match a with ANode _ _ c => a :: flat_map nodes_of c end.

(** b is a child of a. *)
Definition child_of {D} (b a : anode D) : Prop := In b (an_children a).

(** what a node is made from *)
Definition source {D} (a : anode D) : D * list N := (an_data a, an_set a).

(** The event classes of the stretch of the log a repeat set points at. *)
Definition classes (traces : list (list N)) (r : repeat_set) : list N :=
  piece (nth (rs_trace_index r) traces []) (rs_first_pos r) (rs_length r).
