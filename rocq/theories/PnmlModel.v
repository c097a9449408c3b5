(** Writing of Petri nets to PNML files: src/rust/ficus_backend/src/features/discovery/petri_net/pnml_serialization.rs,
    utils/xml_utils.rs 53-95 and pipelines/discovery_parts.rs 32-44.  A file is the sequence of tags and texts given to
    the writer of quick_xml, without the white space it adds between tags.  Writing to memory and to the file does not
    fail.  The data of a transition is given by a function of its id. *)
From Verif Require Import Py HashModel XesModel WireModel RXesModel ReplayModel.

(** quick_xml::events::Event as written in xml_utils.rs 58-63, 66-95 and pnml_serialization.rs 106-113; values and texts are escaped. *)
Inductive ptok :=
| PStart (tag : pystr) (attrs : list (pystr * pystr))
| PEnd (tag : pystr)
| PText (text : pystr).

(** new_with_attrs and drop of StartEndElementCookie around what is written in between, xml_utils.rs 58-95. *)
Definition element (tag : pystr) (attrs : list (pystr * pystr)) (inside : list ptok) : list ptok :=
  PStart tag (map (fun kv => (fst kv, escape (snd kv))) attrs) :: inside ++ [PEnd tag].

(** to_string of u64, pnml_serialization.rs 201, 247, 257. *)
Definition show_id (id : N) : pystr := show_int (Z.of_N id).
(** create_place_id, pnml_serialization.rs 244-249. *)
Definition create_place_id (use_names : bool) (p : N * pystr) : pystr := if use_names then snd p else show_id (fst p).
(** create_transition_id, pnml_serialization.rs 251-259. *)
Definition create_transition_id (use_names : bool) (t : ptrans) : pystr := if use_names then tr_name t else show_id (tr_id t).
(** create_arc_name, pnml_serialization.rs 261-263. *)
Definition create_arc_name (from to : pystr) : pystr := str "[{" ++ from ++ str "}--{" ++ to ++ str "}]".
(** PetriNet::place, petri_net.rs 109-111: panics if there is no such place. *)
Definition net_place (net : pnet) (id : N) : result (N * pystr) :=
  match dget N.eq_dec (n_places net) id with Some name => Ok (id, name) | None => rpanic end.

Section Write.
  (** The order of the values of the hash maps of places and transitions. *)
  Variable ord : nat -> forall A : Type, list A -> list A.
  Variables (net : pnet) (data : N -> option pystr) (use_names : bool).

  (** write_places, pnml_serialization.rs 67-87. *)
  Definition write_places : list ptok :=
    flat_map (fun np => element (str "place") [(str "id", create_place_id use_names (snd np))] [])
      (sort_by_first (map (fun p => (snd p, p)) (ord 0 _ (n_places net)))).
  (** created_ordered_transitions_list, pnml_serialization.rs 126-136. *)
  Definition ordered_transitions : list ptrans := map snd (sort_by_first (map (fun t => (tr_name t, t)) (ord 1 _ (n_trans net)))).
  (** write_transitions, pnml_serialization.rs 89-124. *)
  Definition write_transitions : list ptok :=
    flat_map (fun t => element (str "transition") [(str "id", create_transition_id use_names t)]
      match data (tr_id t) with
      | Some d => element (str "name") [] (element (str "text") [] [PText (escape d)])
      | None => []
      end) ordered_transitions.
  (** patch_arcs_list, pnml_serialization.rs 188-208. *)
  Definition patch_arcs_list (arcs : list parc) (names_creator : parc -> result pystr) : result (list (pystr * parc)) :=
    bind (mapM (fun a => bind (if use_names then names_creator a else Ok (show_id (arc_id a))) (fun n => Ok (n, a))) arcs) (fun l =>
    Ok (sort_by_first l)).
  (** write_incoming_arcs, pnml_serialization.rs 154-186. *)
  Definition write_incoming_arcs (t : ptrans) : result (list ptok) :=
    bind (patch_arcs_list (tr_in t) (fun a => bind (net_place net (arc_place a)) (fun p =>
            Ok (create_arc_name (create_place_id use_names p) (create_transition_id use_names t))))) (fun arcs =>
    bind (mapM (fun na => bind (net_place net (arc_place (snd na))) (fun p =>
            Ok (element (str "arc") [(str "id", fst na); (str "source", create_place_id use_names p); (str "target", create_transition_id use_names t)] []))) arcs) (fun l =>
    Ok (concat l))).
  (** write_outgoing_arcs, pnml_serialization.rs 210-242. *)
  Definition write_outgoing_arcs (t : ptrans) : result (list ptok) :=
    bind (patch_arcs_list (tr_out t) (fun a => bind (net_place net (arc_place a)) (fun p =>
            Ok (create_arc_name (create_transition_id use_names t) (create_place_id use_names p))))) (fun arcs =>
    bind (mapM (fun na => bind (net_place net (arc_place (snd na))) (fun p =>
            Ok (element (str "arc") [(str "id", fst na); (str "target", create_place_id use_names p); (str "source", create_transition_id use_names t)] []))) arcs) (fun l =>
    Ok (concat l))).
  (** write_arcs, pnml_serialization.rs 138-152. *)
  Definition write_arcs : result (list ptok) :=
    bind (mapM (fun t => bind (write_incoming_arcs t) (fun i => bind (write_outgoing_arcs t) (fun o => Ok (i ++ o)))) ordered_transitions) (fun l =>
    Ok (concat l)).
  (** serialize_to_pnml, pnml_serialization.rs 41-65. *)
  Definition serialize_to_pnml : result (list ptok) :=
    bind write_arcs (fun arcs =>
    Ok (element (str "pnml") [] (element (str "net") [] (write_places ++ write_transitions ++ arcs)))).
End Write.
