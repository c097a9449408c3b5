(** Vocabulary for what is shown about a log. *)
From Coq Require Import QArith.
From Coq Require Import ZArith.
From Verif Require Import Py InfoSpec XesModel DrawModel ColorModel.
Open Scope nat_scope.

(** Every element once, in the order of first appearance. *)
Fixpoint once {A} (dec : forall a b : A, {a = b} + {a <> b}) (l : list A) : list A :=
  match l with [] => [] | x :: r => x :: remove dec x (once dec r) end.

(** The names that follow [e] somewhere. *)
Definition followers_of (e : pystr) (pairs : list (pystr * pystr)) : list pystr :=
  map snd (filter (fun p => if str_eq_dec (fst p) e then true else false) pairs).

(** How often an element satisfies the test. *)
Definition times {A} (p : A -> bool) (l : list A) : nat := length (filter p l).

(** Two steps are the same. *)
Definition same_step (a b : pystr * pystr) : bool :=
  (if str_eq_dec (fst a) (fst b) then true else false) && (if str_eq_dec (snd a) (snd b) then true else false).

(** The steps of a log, without ignored names and without fake ends. *)
Definition log_steps (log : list (list pystr)) : list (pystr * pystr) := flat_map neighbours log.

(** A path ends in the file name [f]: the part after the last '/'. *)
Definition file_of (p f : pystr) : Prop := ~ In 47%N f /\ (p = f \/ exists d, p = d ++ 47%N :: f).

(** The last rectangle with the name. *)
Definition last_named (n : pystr) (cs : list colored) (c : colored) : Prop :=
  exists pre post, cs = pre ++ c :: post /\ c_name c = n /\ forall c', In c' post -> c_name c' <> n.

(** The trace is of the variant. *)
Definition is_variant {T} (names : T -> list pystr) (v : list pystr) (t : T) : bool :=
  if list_eq_dec str_eq_dec (names t) v then true else false.

(** The lines about a log: its traces, its events and its different names are counted. *)
Definition info_lines (log : list (list pystr)) : list pystr :=
  [repeat 61%N 44; str "Number of traces in log: " ++ show_int (Z.of_nat (length log));
   str "Number of events in log: " ++ show_int (Z.of_nat (length (concat log)));
   str "Number of low-level event classes in log: " ++ show_int (Z.of_nat (length (once str_eq_dec (concat log)))); repeat 61%N 44].
