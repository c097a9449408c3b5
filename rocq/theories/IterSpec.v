(** What iterators over traces are meant to give. *)
From Coq Require Import List Arith.
Import ListNotations.

(** Steps forward and backward in a trace of n events: the place which is reached.  It is never before the start or after the end. *)
Inductive move := Forward | Backward.
Fixpoint place (n : nat) (p : nat) (l : list move) : nat :=
  match l with
  | [] => p
  | Forward :: r => place n (Nat.min (p + 1) n) r
  | Backward :: r => place n (p - 1) r
  end.
(** The results which are there. *)
Definition somes {R} (l : list (option R)) : list R := flat_map (fun o => match o with Some x => [x] | None => [] end) l.
