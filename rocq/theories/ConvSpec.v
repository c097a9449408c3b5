(** What conversions and the patch are meant to keep, without the functions of the model. *)
From Verif Require Import Py LogModel ConvModel.

(** A dictionary has each key once. *)
Definition wf_events {A} (events : A -> list (dict pystr value)) (ts : list A) : Prop :=
  forall t e, In t ts -> In e (events t) -> NoDup (dkeys e).
Definition without_metadata (l : eventlog) : Prop :=
  l_attrs l = [] /\ l_extensions l = [] /\ l_classifiers l = [] /\ l_properties l = [] /\ l_globals l = [] /\
  forall t, In t (l_traces l) -> t_attrs t = [].

(** [ls] are the lines of [text] which are not empty: the text is made of them and of newlines only. *)
Inductive lines_of : pystr -> list pystr -> Prop :=
| lo_nil : lines_of [] []
| lo_newline text ls : lines_of text ls -> lines_of (10%N :: text) ls
| lo_last l : l <> [] -> ~ In 10%N l -> lines_of l [l]
| lo_line l text ls : l <> [] -> ~ In 10%N l -> lines_of text ls -> lines_of (l ++ 10%N :: text) (l :: ls).

(** A line before and after: the same, or with the package in front of the second word, which is one of the modules. *)
Definition patched (common : list pystr) (package l l' : pystr) : Prop :=
  l' = l \/ exists w m rest, In m common /\ ~ In 32%N w /\ l = w ++ 32%N :: m ++ rest /\ (rest = [] \/ exists r, rest = 32%N :: r) /\
            l' = w ++ 32%N :: package ++ str ".models." ++ m ++ rest.
(** The word import and a space are in the line. *)
Definition has_import (l : pystr) : Prop := exists a b, l = a ++ str "import " ++ b.
(** What the patch does to a line: nothing without an import, and the second word gets the package when it is a module. *)
Definition patched_line (common : list pystr) (package l l' : pystr) : Prop :=
  patched common package l l' /\ (~ has_import l -> l' = l) /\
  forall w m r, In m common -> ~ In 32%N w -> has_import l -> l = w ++ 32%N :: m ++ 32%N :: r ->
    l' = w ++ 32%N :: package ++ str ".models." ++ m ++ 32%N :: r.
