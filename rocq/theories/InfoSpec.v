(** Vocabulary for directly-follows statements, independent of the counting loop. *)
From Verif Require Import Py.

(** The trace without the ignored names ([None]: nothing ignored). *)
Definition kept (ign : option (list pystr)) (t : list pystr) : list pystr :=
  filter (fun n => match ign with None => true | Some l => if in_dec str_eq_dec n l then false else true end) t.

(** The walk a trace describes: optionally framed by the fake start and end when it is not empty. *)
Definition walk (fake : bool) (t : list pystr) : list pystr :=
  match t with
  | [] => []
  | _ => if fake then [str "FAKE_START"] ++ t ++ [str "FAKE_END"] else t
  end.

(** All pairs of neighbours of a sequence. *)
Definition neighbours {A} (l : list A) : list (A * A) := combine l (tl l).

(** Number of times the step a -> b is taken in the log. *)
Definition steps (log : list (list pystr)) (ign : option (list pystr)) (fake : bool) : list (pystr * pystr) :=
  flat_map (fun t => neighbours (walk fake (kept ign t))) log.

(** Names of the non-ignored events, in order. *)
Definition occurrences (log : list (list pystr)) (ign : option (list pystr)) : list pystr :=
  flat_map (kept ign) log.

(** Number of elements satisfying a (decidable) condition. *)
Definition how_many {A} (p : A -> bool) (l : list A) : nat := length (filter p l).

Definition eqs (a b : pystr) : bool := if str_eq_dec a b then true else false.
