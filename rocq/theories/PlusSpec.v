(** What the alpha+ algorithm is meant to compute. *)
From Coq Require Import Permutation.
From Verif Require Import Py InfoSpec ReplayModel ReplaySpec RInfoSpec AlphaModel AlphaSpec.

(** A name directly follows another one somewhere in the log; a name follows itself; the first name occurs around the second. *)
Definition next_to (log : list (list pystr)) (a b : pystr) : Prop := exists l1 l2, In (l1 ++ a :: b :: l2) log.
Definition one_loop (log : list (list pystr)) (c : pystr) : Prop := next_to log c c.
Definition triangle (log : list (list pystr)) (a b : pystr) : Prop := exists l1 l2, In (l1 ++ a :: b :: a :: l2) log.
(** The relation of the alpha+ algorithm: names which follow each other are related if each occurs around the other. *)
Definition plus_causal (log : list (list pystr)) (loops : list pystr) (a b : pystr) : Prop :=
  follows log (Some loops) a b /\ (~ follows log (Some loops) b a \/ (triangle log a b /\ triangle log b a)).
(** The other names before and after a name. *)
Definition around (log : list (list pystr)) (c : pystr) (x : aset) : Prop :=
  tidy x /\ (forall a, In a (as_left x) <-> a <> c /\ next_to log a c) /\ (forall b, In b (as_right x) <-> b <> c /\ next_to log c b).
(** The names which follow themselves, each once. *)
Definition loops_of (log : list (list pystr)) (loops : list pystr) : Prop := NoDup loops /\ forall c, In c loops <-> one_loop log c.

(** A net with a transition more for each name in [loops]: it takes a token from one place and puts it back, and the name of
    that place says what is around the name.  Places of that name are taken, others are made; nothing else is changed. *)
Record with_loops (log : list (list pystr)) (loops : list pystr) (base net : pnet) : Prop := {
  wl_ids : NoDup (all_ids net);
  wl_initial : n_initial net = n_initial base;
  wl_final : n_final net = n_final base;
  wl_trans : exists more, n_trans net = n_trans base ++ more /\ Permutation (map tr_name more) loops /\
    forall t, In t more -> tr_silent t = false /\ exists place x, around log (tr_name t) x /\
      map arc_place (tr_in t) = [place] /\ map arc_place (tr_out t) = [place] /\ In (place, as_string x) (n_places net);
  wl_places : exists new, n_places net = n_places base ++ new /\ NoDup (map snd new) /\
    forall name, In name (map snd new) -> ~ In name (map snd (n_places base)) /\ exists c x, In c loops /\ around log c x /\ name = as_string x }.

(** A name which can be read from the name of a place: not empty and without the characters which separate. *)
Definition plain_name (c : pystr) : Prop := c <> [] /\ ~ In 44%N c /\ ~ In 125%N c.

(** What the names of places say: the place where runs start, that where they end, or the pair of sets a place stands for. *)
Definition named_places (C U : pystr -> pystr -> Prop) (net : pnet) : Prop := forall place name, In (place, name) (n_places net) ->
  (name = str "StartPlace" /\ n_initial net = Some [(place, 1)]) \/ (name = str "EndPlace" /\ n_final net = Some [(place, 1)]) \/
  exists x, name = as_string x /\ tidy x /\ maximal C U (as_left x) (as_right x) /\ stands_for net place (as_left x) (as_right x).
(** A log for which the parts give a net: no trace has less than two events and none starts or ends with a name which follows itself. *)
Definition long_enough (log : list (list pystr)) : Prop := forall t, In t log -> 2 <= length t.
Definition starts_well (log : list (list pystr)) : Prop := forall c, begins_trace log c \/ ends_trace log c -> ~ one_loop log c.
(** The net without the names which follow themselves. *)
Definition plus_net (log : list (list pystr)) (loops : list pystr) (base : pnet) : Prop :=
  alpha_net (plus_causal log loops) (unrelated log (Some loops)) (fun c => (exists t, In t log /\ In c t) /\ ~ one_loop log c) (begins_trace log) (ends_trace log) base /\
  named_places (plus_causal log loops) (unrelated log (Some loops)) base.
