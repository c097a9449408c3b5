(** Vocabulary for layered trees of event classes. *)
From Verif Require Import Py ClassModel.

(** The nodes d steps below the roots. *)
Fixpoint level (d : nat) (roots : list class_node) : list class_node :=
  match d with O => roots | S d' => level d' (flat_map cn_children roots) end.

(** Applying extractors one after the other to a name. *)
Fixpoint promote (extractors : list (pystr -> result pystr)) (name : pystr) : result pystr :=
  match extractors with [] => Ok name | ex :: r => bind (ex name) (promote r) end.

Definition names_of (l : list class_node) : list pystr := map cn_name l.
