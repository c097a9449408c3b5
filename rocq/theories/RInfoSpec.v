(** What the counts and the graph of the backend are meant to say. *)
From Coq Require Import Permutation.
From Verif Require Import Py InfoSpec RInfoModel.

(** Walking over a hash table meets everything in it once, in any order. *)
Definition any_order (ord : nat -> forall A : Type, list A -> list A) : Prop := forall k A (l : list A), Permutation (ord k A l) l.
(** The first, or the last, name of some trace. *)
Definition begins_trace (log : list (list pystr)) (n : pystr) : Prop := exists t, In (n :: t) log.
Definition ends_trace (log : list (list pystr)) (n : pystr) : Prop := exists t, In (t ++ [n]) log.
(** The entry of a table of tables. *)
Definition entry {K V} (eqd : forall a b : K, {a = b} + {a <> b}) (d : dict K (dict K V)) (a b : K) : option V :=
  match dget eqd d a with Some m => dget eqd m b | None => None end.
(** A count as an entry: none instead of 0. *)
Definition positive (n : nat) : option nat := if n =? 0 then None else Some n.
(** No key occurs twice in the tables of a graph, as in any hash table. *)
Definition graph_tidy (g : rgraph) : Prop :=
  NoDup (dkeys (rg_connections g)) /\ forall a c, dget N.eq_dec (rg_connections g) a = Some c -> NoDup (dkeys c).
