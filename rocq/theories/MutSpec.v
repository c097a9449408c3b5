(** Vocabulary for the statements about removing and editing events. *)
From Verif Require Import Py LogModel.

(** [e] has the attribute concept:name with the string value [n] / has a name at all. *)
Definition named (e : event) (n : pystr) : Prop := eget e concept_name = Some (VStr n).
Definition has_name (e : event) : Prop := exists v, eget e concept_name = Some v.

(** [e] occurs somewhere in the log. *)
Definition in_log (e : event) (log : eventlog) : Prop :=
  exists t, In t (l_traces log) /\ In e (t_events t).

(** [Deleted P xs ys]: ys is xs with exactly the elements satisfying P taken out. *)
Inductive Deleted {A} (P : A -> Prop) : list A -> list A -> Prop :=
| Del_nil : Deleted P [] []
| Del_drop x xs ys : P x -> Deleted P xs ys -> Deleted P (x :: xs) ys
| Del_keep x xs ys : ~ P x -> Deleted P xs ys -> Deleted P (x :: xs) (x :: ys).

(** [TracesDeleted P ts us]: us is ts with the events satisfying P deleted from every trace
    and the traces left without events dropped; kept traces carry no attributes. *)
Inductive TracesDeleted (P : event -> Prop) : list trace -> list trace -> Prop :=
| TD_nil : TracesDeleted P [] []
| TD_gone t ts us : Deleted P (t_events t) [] -> TracesDeleted P ts us ->
                    TracesDeleted P (t :: ts) us
| TD_kept t es ts us : Deleted P (t_events t) es -> es <> [] -> TracesDeleted P ts us ->
                    TracesDeleted P (t :: ts) ({| t_events := es; t_attrs := [] |} :: us).

Definition no_metadata (log : eventlog) : Prop :=
  l_attrs log = [] /\ l_extensions log = [] /\ l_classifiers log = [] /\
  l_properties log = [] /\ l_globals log = [].

(** Number of elements / events of the log satisfying a boolean test. *)
Definition count {A} (f : A -> bool) (l : list A) : nat := length (filter f l).
Definition count_log (f : event -> bool) (log : eventlog) : nat :=
  count f (concat (map t_events (l_traces log))).

(** Same traces, same number and order of events, same trace attributes and log metadata;
    corresponding events are related by [R]. *)
Definition SameShape (R : event -> event -> Prop) (log log' : eventlog) : Prop :=
  Forall2 (fun t t' => t_attrs t' = t_attrs t /\ Forall2 R (t_events t) (t_events t'))
          (l_traces log) (l_traces log')
  /\ l_attrs log' = l_attrs log /\ l_extensions log' = l_extensions log
  /\ l_classifiers log' = l_classifiers log /\ l_properties log' = l_properties log
  /\ l_globals log' = l_globals log.

(** Apply an operation once for each element of the list, left to right, stopping at an
    exception: "one after another". *)
Definition foldM {A B} (f : B -> A -> result B) : list A -> B -> result B :=
  fix go l b := match l with [] => Ok b | x :: xs => bind (f b x) (go xs) end.
