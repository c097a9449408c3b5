(** Vocabulary for C56: what a graph shows of a forest. *)
From Coq Require Import Permutation.
From Verif Require Import Py LogModel ClassSpec GraphModel.

(** All nodes of a tree, the root first. *)
Fixpoint members {A} (n : gnode A) : list (gnode A) :=
  match n with GNode _ c => n :: flat_map members c end.
(** All nodes of a forest. *)
Definition forest {A} (l : list (gnode A)) : list (gnode A) := flat_map members l.

(** Names of nodes and pairs (tail, head) of edges of a graph. *)
Definition drawn (g : list gcall) : list pystr := flat_map (fun c => match c with Node n => [n] | Edge _ _ => [] end) g.
Definition arrows (g : list gcall) : list (pystr * pystr) := flat_map (fun c => match c with Edge t h => [(t, h)] | Node _ => [] end) g.

(** The links of the nodes [l]: child to parent. *)
Definition links {A} (name : gnode A -> pystr) (l : list (gnode A)) : list (pystr * pystr) :=
  flat_map (fun n => map (fun c => (name c, name n)) (gn_children n)) l.
(** The links of the top nodes to the extra node. *)
Definition to_root {A} (name : gnode A -> pystr) (l : list (gnode A)) (add_root : bool) : list (pystr * pystr) :=
  if add_root then map (fun n => (name n, str "root")) l else [].

(** [g] shows the nodes [shown] and nothing else: each as one node, and an edge to its parent for each
    child of each. *)
Definition shows {A} (name : gnode A -> pystr) (tops : list (gnode A)) (add_root : bool) (shown : list (gnode A)) (g : list gcall) : Prop :=
  drawn g = map name shown /\ Permutation (arrows g) (to_root name tops add_root ++ links name shown).

(** [shown] are nodes of the forest with pairwise different names, and every top node and every child
    of a shown node has the name of a shown one. *)
Definition closed_choice {A} (name : gnode A -> pystr) (tops shown : list (gnode A)) : Prop :=
  NoDup (map name shown) /\ incl shown (forest tops) /\
  (forall n, In n tops -> In (name n) (map name shown)) /\
  (forall n c, In n shown -> In c (gn_children n) -> In (name c) (map name shown)).

(** A class name that can be told apart in the name of an activity; [legible] also when the parts of the
    name are drawn below each other. *)
Definition bare (c : pystr) : Prop := c <> [] /\ ~ In 58%N c.
Definition legible (c : pystr) : Prop := bare c /\ ~ In 10%N c.
Definition all_classes (P : pystr -> Prop) (ce : event -> result pystr) (l : eventlog) : Prop :=
  forall t e c, In t (l_traces l) -> In e (t_events t) -> ce e = Ok c -> P c.

(** [m] is a class on layer [j]: the name of an event after the first [j] extractors. *)
Definition class_at (log : list (list pystr)) (exts : list (pystr -> result pystr)) (j : nat) (m : pystr) : Prop :=
  exists n, In n (concat log) /\ promote (firstn j exts) n = Ok m.
(** No class is on two layers. *)
Definition layers_apart (log : list (list pystr)) (exts : list (pystr -> result pystr)) : Prop :=
  forall i j m, i <= length exts -> j <= length exts -> class_at log exts i m -> class_at log exts j m -> i = j.

(** Text on one line. *)
Definition line (s : pystr) : Prop := ~ In 10%N s.
