(** What the alpha algorithm is meant to compute. *)
From Coq Require Import Sorted.
From Verif Require Import Py InfoSpec HashModel ReplayModel ReplaySpec AlphaModel.

(** A place of the alpha algorithm stands for a pair of sets of names: everything in the first is in relation [C] to
    everything in the second, and within each set everything is in relation [U]. *)
Definition fits (C U : pystr -> pystr -> Prop) (A B : list pystr) : Prop :=
  A <> [] /\ B <> [] /\ (forall a b, In a A -> In b B -> C a b) /\
  (forall a a', In a A -> In a' A -> U a a') /\ (forall b b', In b B -> In b' B -> U b b').
(** No larger pair fits. *)
Definition maximal (C U : pystr -> pystr -> Prop) (A B : list pystr) : Prop :=
  fits C U A B /\ forall A' B', fits C U A' B' -> incl A A' -> incl B B' -> incl A' A /\ incl B' B.
(** The same names, in any order. *)
Definition same_names (A B : list pystr) : Prop := forall x, In x A <-> In x B.

(** The relations of the alpha algorithm on the log without the ignored names. *)
Definition follows (log : list (list pystr)) (ign : option (list pystr)) (a b : pystr) : Prop := In (a, b) (steps log ign false).
Definition causal (log : list (list pystr)) (ign : option (list pystr)) (a b : pystr) : Prop := follows log ign a b /\ ~ follows log ign b a.
Definition unrelated (log : list (list pystr)) (ign : option (list pystr)) (a b : pystr) : Prop := ~ follows log ign a b /\ ~ follows log ign b a.

(** Names in ascending order, each once, on both sides of a set. *)
Definition slt (a b : pystr) : Prop := str_leb a b = true /\ a <> b.
Definition bsorted (l : list pystr) : Prop := StronglySorted slt l.
Definition sd (s : bool) (x : aset) : list pystr := if s then as_left x else as_right x.
Definition tidy (x : aset) : Prop := forall s, bsorted (sd s x).

(** * Nets in terms of names
    The transition named so puts a token into the place, or takes one from it. *)
Definition feeds (net : pnet) (place : N) (c : pystr) : Prop := exists t, In t (n_trans net) /\ tr_name t = c /\ In place (map arc_place (tr_out t)).
Definition drains (net : pnet) (place : N) (c : pystr) : Prop := exists t, In t (n_trans net) /\ tr_name t = c /\ In place (map arc_place (tr_in t)).
(** The place stands for the pair of sets. *)
Definition stands_for (net : pnet) (place : N) (A B : list pystr) : Prop :=
  (forall c, feeds net place c <-> In c A) /\ (forall c, drains net place c <-> In c B).
(** Everything in the net has an id of its own: transitions, places and arcs. *)
Definition all_ids (net : pnet) : list N := map tr_id (n_trans net) ++ dkeys (n_places net) ++ flat_map arcs_of (n_trans net).

(** The net the alpha algorithm is meant to give: a transition for each class, a place for each maximal pair, a place
    where traces start and one where they end, and no other place or arc. *)
Record alpha_net (C U : pystr -> pystr -> Prop) (classes starts ends : pystr -> Prop) (net : pnet) : Prop := {
  an_ids : NoDup (all_ids net);
  an_names : NoDup (map tr_name (n_trans net));
  an_classes : forall c, In c (map tr_name (n_trans net)) <-> classes c;
  an_loud : forall t, In t (n_trans net) -> tr_silent t = false;
  an_in_once : forall t, In t (n_trans net) -> NoDup (map arc_place (tr_in t));
  an_out_once : forall t, In t (n_trans net) -> NoDup (map arc_place (tr_out t));
  an_arcs : forall t a, In t (n_trans net) -> In a (tr_in t) \/ In a (tr_out t) -> In (arc_place a) (dkeys (n_places net));
  an_places : exists start stop, start <> stop /\
    In (start, str "StartPlace") (n_places net) /\ In (stop, str "EndPlace") (n_places net) /\
    n_initial net = Some [(start, 1)] /\ n_final net = Some [(stop, 1)] /\
    (forall c, ~ feeds net start c) /\ (forall c, drains net start c <-> starts c) /\
    (forall c, feeds net stop c <-> ends c) /\ (forall c, ~ drains net stop c) /\
    (forall place, In place (dkeys (n_places net)) -> place <> start -> place <> stop ->
       exists A B, maximal C U A B /\ stands_for net place A B) /\
    (forall A B, maximal C U A B ->
       exists place, In place (dkeys (n_places net)) /\ place <> start /\ place <> stop /\ stands_for net place A B /\
         forall place', In place' (dkeys (n_places net)) -> place' <> start -> place' <> stop -> stands_for net place' A B -> place' = place) }.
