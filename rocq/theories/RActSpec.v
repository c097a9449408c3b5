(** Vocabulary for C67-C69: what is said about the patterns, sets and activities the backend finds. *)
From Coq Require Import Sorting.Sorted.
From Verif Require Import Py PatternModel PatternSpec TreeModel TreeSpec ActModel ActSpec RActModel.

(** The hash of a word is computed, without overflow. *)
Definition hashable (sip : N -> N) (w : list N) : Prop := exists h, poly_hash sip w = Ok h.

(** Different pieces of the trace with at least two classes have different hashes. *)
Definition apart (sip : N -> N) (trace : list N) : Prop :=
  forall i L j M, 2 <= L -> 2 <= M -> i + L < length trace -> j + M < length trace ->
    poly_hash sip (piece trace i L) = poly_hash sip (piece trace j M) -> piece trace i L = piece trace j M.

(** Every pattern lies inside of its trace. *)
Definition within (log : list (list N)) (patterns : list (list sub_array)) : Prop :=
  forall k trace subs s, nth_error log k = Some trace -> nth_error patterns k = Some subs -> In s subs ->
    sa_first_pos s + sa_length s <= length trace.

(** The classes of a pattern as an increasing list: two patterns with the same classes have the same one. *)
Definition increasing (l : list N) : Prop := StronglySorted N.lt l.

(** [l] hashes without overflow, for each class set of a pattern. *)
Definition sets_hashable (sip : N -> N) (log : list (list N)) (patterns : list (list sub_array)) : Prop :=
  forall x l, In x (all_patterns 0 (combine patterns log)) -> increasing l -> same_set l (snd x) -> hashable sip l.
(** Different class sets of patterns have different hashes. *)
Definition sets_apart (sip : N -> N) (log : list (list N)) (patterns : list (list sub_array)) : Prop :=
  forall x y l m, In x (all_patterns 0 (combine patterns log)) -> In y (all_patterns 0 (combine patterns log)) ->
    increasing l -> same_set l (snd x) -> increasing m -> same_set m (snd y) ->
    poly_hash sip l = poly_hash sip m -> l = m.

(** By trace, then start, then length. *)
Definition earlier (a b : repeat_set) : Prop :=
  rs_trace_index a < rs_trace_index b \/
  (rs_trace_index a = rs_trace_index b /\ (rs_first_pos a < rs_first_pos b \/
   (rs_first_pos a = rs_first_pos b /\ rs_length a <= rs_length b))).

(** Strict inclusion of class sets. *)
Definition strictly_in (a b : list N) : Prop := included a b /\ ~ included b a.

(** Narrowing changes something. *)
Definition narrows (kind : narrowing) : bool := match kind with NarrowUp | NarrowDown => true | _ => false end.

(** What the filter lets through: enough classes in the activity and an instance longer than half of them. *)
Definition suitable {D} (min_events : nat) (kind : filter_kind) (x : instance D) : Prop :=
  kind = DefaultFilter -> min_events <= length (an_set (in_node x)) /\ length (an_set (in_node x)) / 2 < in_length x.

(** A maximal run of positions outside of the instances. *)
Definition stretch {D} (l : list (instance D)) (n a b : nat) : Prop :=
  a < b /\ b <= n /\ (forall j, a <= j < b -> ~ covered l j) /\
  (a = 0 \/ covered l (a - 1)) /\ (b = n \/ covered l b).
(** An instance found [k] positions further on. *)
Definition moved {D} (k : nat) (x : instance D) : instance D := mkInst (in_node x) (k + in_start x) (in_length x).
(** [l] is obtained from [m] by leaving elements out. *)
Inductive thinned {A} : list A -> list A -> Prop :=
| th_nil : thinned [] []
| th_keep x l m : thinned l m -> thinned (x :: l) (x :: m)
| th_skip x l m : thinned l m -> thinned l (x :: m).
(** Class sets without repetitions, no two with the same classes. *)
Definition proper {D} (input : list (raw_node D)) : Prop :=
  Forall (fun r => NoDup (rn_set r)) input /\
  forall i j x y, nth_error input i = Some x -> nth_error input j = Some y -> included (rn_set x) (rn_set y) -> included (rn_set y) (rn_set x) -> i = j.
(** The nodes of a forest, those below others included. *)
Definition in_forest {D} (a : anode D) (F : list (anode D)) : Prop := In a (flat_map nodes_of F).
