(** Vocabulary for patterns in sequences. *)
From Verif Require Import Py HashModel PatternModel.

(** The piece of length n at position i. *)
Definition piece {A} (l : list A) (i n : nat) : list A := firstn n (skipn i l).

(** The piece of length L at i is repeated r times in a row, inside l. *)
Definition repeated {A} (l : list A) (i L r : nat) : Prop :=
  i + r * L <= length l /\ forall k, k < r -> piece l (i + k * L) L = piece l i L.

(** b occurs inside l. *)
Definition inside {A} (b l : list A) : Prop := exists p q, l = p ++ b ++ q.

(** (L', i') is visited before (L, i). *)
Definition before (w w' : nat * nat) : Prop := fst w < fst w' \/ (fst w = fst w' /\ snd w < snd w').

(** The two lists have the same elements. *)
Definition same_set {A} (a b : list A) : Prop := forall x, In x a <-> In x b.

(** All patterns in the order of traces and of the pattern lists, each with its event classes. *)
Fixpoint all_patterns (index : nat) (pairs : list (list sub_array * list N)) : list (repeat_set * list N) :=
  match pairs with
  | [] => []
  | (subs, trace) :: r =>
      map (fun s => (mkRS (sa_first_pos s) (sa_length s) index, piece trace (sa_first_pos s) (sa_length s))) subs ++ all_patterns (S index) r
  end.

(** No two different pieces of the trace have the same polynomial hash (util.py 27-40). *)
Definition no_collision (trace : list N) : Prop :=
  forall i L j M, i + L <= length trace -> j + M <= length trace ->
    collection_poly_hash_slice trace i (i + L) = collection_poly_hash_slice trace j (j + M) -> piece trace i L = piece trace j M.

(** No two different class sets of patterns have the same hash. *)
Definition collision_free (traces : list (list N)) (subs : list (list sub_array)) : Prop :=
  forall x y, In x (all_patterns 0 (combine subs traces)) -> In y (all_patterns 0 (combine subs traces)) ->
    collection_poly_hash (sorted_set (snd x)) = collection_poly_hash (sorted_set (snd y)) -> sorted_set (snd x) = sorted_set (snd y).

(** The sequence of classes a repeat stands for. *)
Definition block (trace : list N) (r : sub_array) : list N := piece trace (sa_first_pos r) (sa_length r).
