(** Vocabulary for the statements about splitting and merging logs. *)
From Verif Require Import Py HashModel.

(** [Merged log seps out]: out is the traces one after the other, each followed by its separator. *)
Inductive Merged {E} : list (list E) -> list E -> list E -> Prop :=
| Merged_nil : Merged [] [] []
| Merged_cons t sep log seps out :
    Merged log seps out -> Merged (t :: log) (sep :: seps) (t ++ sep :: out).

(** No two different names occurring in the log have the same (code-defined) string hash. *)
Definition collision_free_names {T} (names : T -> list pystr) (log : list T) : Prop :=
  forall t u n m, In t log -> In u log -> In n (names t) -> In m (names u) ->
    string_poly_hash n = string_poly_hash m -> n = m.
