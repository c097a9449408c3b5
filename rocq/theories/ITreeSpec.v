(** What an interval tree is meant to find. *)
From Coq Require Import Sorted.
From Verif Require Import Py ITreeModel.

(** The left end is not behind the right one. *)
Definition proper (i : interval) : Prop := (iv_left i <= iv_right i)%Z.
(** The point is in the interval, ends included. *)
Definition covers (i : interval) (p : Z) : Prop := (iv_left i <= p <= iv_right i)%Z.
(** The interval is inside the given one. *)
Definition within (i : interval) (left right : Z) : Prop := (left <= iv_left i /\ iv_right i <= right)%Z.
(** No interval twice, left ends ascending. *)
Definition tidy (l : list interval) : Prop := NoDup l /\ Sorted (fun a b => iv_left a <= iv_left b)%Z l.
(** What is known of the place binary_search gives in a sorted list: one where the element is, or else where it would be put. *)
Definition any_place (pick : list Z -> Z -> nat) : Prop := forall l x, Sorted Z.le l ->
  (In x l -> nth_error l (pick l x) = Some x) /\ (~ In x l -> pick l x = length (filter (fun y => y <? x)%Z l)).
(** Trees a user can have: a new one of the intervals, or one after searches for envelopes, which sort its boundaries. *)
Inductive tree_of (ord : nat -> forall A : Type, list A -> list A) (pick : list Z -> Z -> nat) (l : list interval) : itree -> Prop :=
| tree_new fuel t : it_new fuel l = Ok t -> tree_of ord pick l t
| tree_used fuel t left right r t' : tree_of ord pick l t -> it_envelopes ord pick fuel t left right = Ok (r, t') -> tree_of ord pick l t'.
