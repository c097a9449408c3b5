(** Vocabulary for C71: the parts which look for activities. *)
From Coq Require Import Permutation.
From Verif Require Import Py ReplayModel PatternModel PatternSpec TreeModel TreeSpec ActModel ActSpec RActModel RActSpec RLogModel RLogSpec RPipeModel.

(** The hash of no word overflows. *)
Definition hash_total (sip : N -> N) : Prop := forall w, hashable sip w.
(** The result has a property, or it is a panic, which can be when the hash of some word overflows only. *)
Definition good {X} (sip : N -> N) (P : X -> Prop) (r : result X) : Prop :=
  match r with Ok x => P x | Err e => Err e = @rpanic X /\ exists w, @poly_hash sip w = rpanic end.
(** The regex of a configuration can be compiled. *)
Definition regex_valid (compile : pystr -> option (pystr -> option (nat * nat))) (cfg : act_config) : Prop :=
  match cf_regex cfg with None => True | Some r => compile r <> None end.
Definition is_tandem (k : patterns_kind) : bool := match k with PrimitiveTandemArrays | MaximalTandemArrays => true | _ => false end.
(** What the search for patterns reads is there. *)
Definition patterns_keys (cfg : act_config) : Prop :=
  exists k, cf_kind cfg = Some k /\ (if is_tandem k then cf_array_length cfg <> None else cf_merged cfg <> None).
(** What the search for instances reads is there. *)
Definition instances_keys (cfg : act_config) : Prop := cf_narrow cfg <> None /\ cf_min_length cfg <> None /\ cf_filter cfg <> None.
(** Everything the search until there is no more reads is there. *)
Definition until_keys (cfg : act_config) : Prop :=
  patterns_keys cfg /\ instances_keys cfg /\ cf_level cfg <> None /\ cf_undef cfg <> None /\ cf_only_last cfg <> None.
(** Everything the search on several levels reads is there, besides the kind of patterns. *)
Definition levels_keys (cfg : act_config) : Prop :=
  instances_keys cfg /\ cf_level cfg <> None /\ cf_merged cfg <> None /\ cf_events_count cfg <> None.

Section Contexts.
  Context {A : Type}.
  Notation ctx := (@act_context A).

  (** The pipeline always works and leaves the log and the instances as they are. *)
  Definition harmless (p : ctx -> result ctx) : Prop :=
    forall c, exists c', p c = Ok c' /\ ac_log c' = ac_log c /\ ac_instances c' = ac_instances c.
  (** When the pipeline works, it leaves them as they are. *)
  Definition keeping (p : ctx -> result ctx) : Prop :=
    forall c c', p c = Ok c' -> ac_log c' = ac_log c /\ ac_instances c' = ac_instances c.
  Definition opt (P : (ctx -> result ctx) -> Prop) (o : option (ctx -> result ctx)) : Prop := match o with Some p => P p | None => True end.
  (** Nothing is left of the search but the log and the hashes. *)
  Definition cleared (c : ctx) : Prop := ac_patterns c = None /\ ac_repeat_sets c = None /\ ac_activities c = None /\ ac_instances c = None.

  (** The instances of the context are those of its log, and there are some. *)
  Definition with_instances (c : ctx) : Prop :=
    exists log l, ac_log c = Some log /\ ac_instances c = Some l /\ in_order l log /\ exists x, In x (concat l).
  (** All of them are single events. *)
  Definition single_only (c : ctx) : Prop := exists l, ac_instances c = Some l /\ forall x, In x (concat l) -> in_length x = 1.
  (** The activities and the instances of a context; none and empty ones if there are none yet. *)
  Definition known_activities (c : ctx) : list (anode (pystr * nat)) := match ac_activities c with Some l => l | None => [] end.
  Definition known_instances (log : list (list (revent A))) (c : ctx) : list (list (instance (pystr * nat))) :=
    match ac_instances c with Some l => l | None => map (fun _ => []) log end.
  (** A context with a log and its name only. *)
  Definition only_log (n : pystr) (log : list (list (revent A))) : ctx := mkACtx (Some log) None None None None None (Some n).
  (** The number of events of the log of a context. *)
  Definition events_of (c : ctx) : nat := match ac_log c with Some log => total_length log | None => 0 end.
End Contexts.

(** All nodes have a level. *)
Definition all_of_level (n : nat) (F : list (anode (pystr * nat))) : Prop := forall a, In a (flat_map nodes_of F) -> snd (an_data a) = n.
(** The forests of levels from [n] on. *)
Fixpoint levels_from (n : nat) (news : list (list (anode (pystr * nat)))) : Prop :=
  match news with [] => True | F :: r => all_of_level n F /\ levels_from (S n) r end.

Section Search.
  Context {A : Type}.
  Variables (name_of : A -> pystr) (sip : N -> N) (text_hash : pystr -> N) (ord : nat -> forall B : Type, list B -> list B).
  Variable compile : pystr -> option (pystr -> option (nat * nat)).
  (** A search in a log finds these instances. *)
  Definition search (level : nat) (cfg : act_config) (log : list (list (revent A))) (l : list (list (instance (pystr * nat)))) : Prop :=
    exists c, discovery name_of sip text_hash ord compile level cfg (put_log empty_context log) = Ok c /\ ac_instances c = Some l.
End Search.
