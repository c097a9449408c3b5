(** The net the alpha++ NFC algorithm is meant to give. *)
From Verif Require Import Py InfoSpec ReplayModel ReplaySpec RInfoSpec AlphaModel AlphaSpec PlusSpec NfcSpec NfcNetSpec.

(** A transition for each name, a place for each of some pairs of sets of names, and nothing else; no marking. *)
Record nfc_net (classes : pystr -> Prop) (sets : list (list pystr * list pystr)) (net : pnet) : Prop := {
  nn_ids : NoDup (all_ids net);
  nn_names : NoDup (map tr_name (n_trans net));
  nn_classes : forall c, In c (map tr_name (n_trans net)) <-> classes c;
  nn_loud : forall t, In t (n_trans net) -> tr_silent t = false;
  nn_in_once : forall t, In t (n_trans net) -> NoDup (map arc_place (tr_in t));
  nn_out_once : forall t, In t (n_trans net) -> NoDup (map arc_place (tr_out t));
  nn_arcs : forall t a, In t (n_trans net) -> In a (tr_in t) \/ In a (tr_out t) -> In (arc_place a) (dkeys (n_places net));
  nn_places : forall place name, In (place, name) (n_places net) -> exists A B, In (A, B) sets /\ name = as_string (mkASet A B) /\ stands_for net place A B;
  nn_sets : forall A B, In (A, B) sets -> exists place, In (place, as_string (mkASet A B)) (n_places net) /\ stands_for net place A B;
  nn_count : length (n_places net) = length sets;
  nn_initial : n_initial net = None;
  nn_final : n_final net = None }.
(** Two sets are the names of two of three sets, each with those of the third. *)
Definition joins3 (A B C U V : list pystr) : Prop := same_names U (A ++ C) /\ same_names V (B ++ C).
