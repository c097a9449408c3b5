(** Vocabulary for equality of events, traces and logs. *)
From Verif Require Import Py LogModel.

(** A Python dict: no key twice. *)
Definition is_dict {V} (d : dict pystr V) : Prop := NoDup (dkeys d).

(** Same keys with the same values, whatever the insertion order. *)
Definition same_dict {V} (d d' : dict pystr V) : Prop :=
  is_dict d /\ is_dict d' /\ forall k, dget str_eq_dec d k = dget str_eq_dec d' k.

(** Same events in the same order (trace attributes may differ). *)
Definition same_trace (t t' : trace) : Prop := Forall2 same_dict (t_events t) (t_events t').

(** Same traces and same metadata (global values may differ). *)
Definition same_log (l l' : eventlog) : Prop :=
  Forall2 same_trace (l_traces l) (l_traces l') /\
  same_dict (l_attrs l) (l_attrs l') /\ same_dict (l_extensions l) (l_extensions l') /\
  same_dict (l_classifiers l) (l_classifiers l') /\ same_dict (l_properties l) (l_properties l').

(** The polynomial with coefficients 1 + c_i at 31. *)
Definition poly (l : list N) : N := fold_right (fun c r => 1 + c + 31 * r)%N 0%N l.
