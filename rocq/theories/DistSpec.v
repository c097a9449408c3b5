(** Vocabulary for distances. *)
From Coq Require Import SpecFloat.
From Verif Require Import Py.

(** Editing [a] into [b] with [n] changes, additions and omissions of symbols. *)
Inductive script {A : Type} : list A -> list A -> nat -> Prop :=
| s_nil : script [] [] 0
| s_keep x a b n : script a b n -> script (x :: a) (x :: b) n
| s_change x y a b n : script a b n -> script (x :: a) (y :: b) (S n)
| s_drop x a b n : script a b n -> script (x :: a) b (S n)
| s_add y a b n : script a b n -> script a (y :: b) (S n).
(** The Levenshtein distance: the least number of edits. *)
Definition levenshtein {A} (a b : list A) (n : nat) : Prop := script a b n /\ forall m, script a b m -> n <= m.
(** A f64 that is zero. *)
Definition is_zero (x : spec_float) : Prop := exists s, x = S754_zero s.
