(** Vocabulary for the text format. *)
From Verif Require Import Py LogModel.

(** The pieces written one after another with the separator between neighbours. *)
Fixpoint joined (sep : pystr) (l : list pystr) : pystr :=
  match l with
  | [] => []
  | [x] => x
  | x :: r => x ++ sep ++ joined sep r
  end.

(** [sep] occurs in [s] at index [i]. *)
Definition occurs_at (sep s : pystr) (i : nat) : Prop := exists a b, s = a ++ sep ++ b /\ length a = i.
Definition contains (sep s : pystr) : Prop := exists i, occurs_at sep s i.

(** When [x] is followed by the separator, no occurrence of it starts inside [x]. *)
Definition clean (sep x : pystr) : Prop := forall i, i < length x -> ~ occurs_at sep (x ++ sep) i.

(** A list of pieces that splitting can recover. *)
Fixpoint splittable (sep : pystr) (l : list pystr) : Prop :=
  match l with
  | [] => False
  | [x] => ~ contains sep x
  | x :: r => clean sep x /\ splittable sep r
  end.

(** The log whose events have just the given names. *)
Definition log_of_names (names : list (list pystr)) : eventlog :=
  log_of_traces (map (fun t => trace_of_events (map (fun n => [(concept_name, VStr n)]) t)) names).

(** The events of the log are named as given (they may carry more). *)
Definition log_names (log : eventlog) (names : list (list pystr)) : Prop :=
  Forall2 (fun t ns => Forall2 (fun e n => eget e concept_name = Some (VStr n)) (t_events t) ns) (l_traces log) names.
