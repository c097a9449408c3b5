(** Model of the hash functions of legacy/util.py 6-71.  Definitions only. *)
From Verif Require Import Py.

(** util.py 6-7. *)
Definition modulus : N := 1000000007.
(** legacy/util.py 7. *)
Definition base : N := 31.

(** One loop iteration of util.py 20-22 and 36-38: [c] is ord(s[i]) resp. hash(collection[i]). *)
Definition hash_step (st : N * N) (c : N) : N * N :=
  let '(h, pp) := st in (((h + (1 + c) * pp) mod modulus)%N, ((pp * base) mod modulus)%N).

(** util.py 16-24 calculate_string_poly_hash. *)
Definition string_poly_hash (s : pystr) : N := fst (fold_left hash_step s (0%N, 1%N)).

(** util.py 27-40 calculate_poly_hash_for_collection with the default bounds; the argument is the
    list of hash(x) of the elements.  Simplification: these are natural numbers below 2^61-1 on
    which Python's hash() of an int is the identity (they are results of the functions here). *)
Definition collection_poly_hash (hs : list N) : N :=
  match hs with [] => 0%N | _ => fst (fold_left hash_step hs (1%N, 1%N)) end.

(** The slice variant used with explicit bounds (util.py 27-40, start_index <= end_index <= len). *)
Definition collection_poly_hash_slice (hs : list N) (start_index end_index : nat) : N :=
  match hs with
  | [] => 0%N
  | _ => fst (fold_left hash_step (firstn (end_index - start_index) (skipn start_index hs)) (1%N, 1%N))
  end.

(** Python's lexicographic comparison of str by code point: a <= b.  Used by sorted in legacy/util.py 44. *)
Fixpoint str_leb (a b : pystr) : bool :=
  match a, b with
  | [], _ => true
  | _ :: _, [] => false
  | x :: a', y :: b' => if (x <? y)%N then true else if (x =? y)%N then str_leb a' b' else false
  end.

(** sorted(list of str), as a stable insertion sort (equal strings are indistinguishable, so any
    sorting algorithm gives this list).  legacy/util.py 44. *)
Fixpoint insert_str (x : pystr) (l : list pystr) : list pystr :=
  match l with
  | [] => [x]
  | y :: l' => if str_leb x y then x :: l else y :: insert_str x l'
  end.
(** legacy/util.py 44. *)
Definition sort_strs (l : list pystr) : list pystr := fold_right insert_str [] l.

(** util.py 43-45 calculate_dict_hash for a dict whose values are rendered by [tostr] (str(v)). *)
Definition dict_hash {V} (tostr : V -> pystr) (d : dict pystr V) : N :=
  collection_poly_hash (map string_poly_hash
    (sort_strs (map (fun kv => fst kv ++ tostr (snd kv)) d))).

(** util.py 59-60: hash((first, second)) is Python's tuple hash, kept abstract; util.py 63-71. *)
Section Combine.
  Variable tuple_hash : Z -> Z -> Z.
  Definition combine_list_of_hashes (hs : list Z) : Z :=
    match hs with [] => 0%Z | h :: hs' => fold_left tuple_hash hs' h end.
End Combine.
