(** Model of build_class_tree, legacy/analysis/patterns/event_log_patterns.py 564-583.  Only names
    matter, so the log is given by its name sequences (InfoModel). *)
From Verif Require Import Py InfoModel.

(** EventClassNode, patterns_models.py 80-85, with GraphNode, common_models.py 4-7. *)
Inductive class_node := CNode (name : pystr) (child_nodes : list class_node).
(** node.name, common_models.py 6. *)
Definition cn_name (n : class_node) : pystr := let 'CNode x _ := n in x.
(** node.child_nodes, common_models.py 7. *)
Definition cn_children (n : class_node) : list class_node := let 'CNode _ c := n in c.

(** legacy/analysis/patterns/event_log_patterns.py 571-579: one extractor.  names_to_new_nodes maps a name to the node with this name; here it
    maps the name to the children of that node. *)
Definition class_layer (extractor : pystr -> result pystr) (prev : list class_node) : result (list class_node) :=
  bind (loopM (fun d n => bind (extractor (cn_name n)) (fun m => Ok (dpush str_eq_dec d m n))) prev [])
       (fun d => Ok (map (fun kv => CNode (fst kv) (snd kv)) d)).

(** legacy/analysis/patterns/event_log_patterns.py 564-583; [order] is the iteration order of the set of names. *)
Definition build_class_tree (order : list pystr -> list pystr) (log : names_log)
  (class_extractors : list (pystr -> result pystr)) : result (list class_node) :=
  let initial_set_of_names := order (dkeys (li_events_count (create_log_information log None false))) in
  loopM (fun layer extractor => class_layer extractor layer) class_extractors
        (map (fun name => CNode name []) initial_set_of_names).

(** GraphNode.__str__, common_models.py 12-20, for EventClassNode. *)
Fixpoint class_node_str (n : class_node) : pystr :=
  let 'CNode name cs := n in
  name ++ flat_map (fun c => str "(" ++ class_node_str c ++ str ")") cs.
