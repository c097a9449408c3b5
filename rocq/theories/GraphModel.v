(** Model of the graphs of activities and of event classes: legacy/analysis/patterns/patterns_graphs.py
    164-236 and legacy/pipelines/analysis/patterns/patterns_graph_parts.py 17-159.
    Simplifications: a graphviz.Digraph is the list of calls made on it; rendering and displaying it
    (_do_draw_graph, patterns_graphs.py 198-204) and the attributes setter are left out; naming a node does not raise. *)
From Verif Require Import Py XesModel LogModel HashModel TextModel InfoModel PatternModel TreeModel ActModel ActLogModel ClassModel HighModel.

(** GraphNode, common_models.py 4-7, with what else a node holds. *)
Inductive gnode (A : Type) := GNode (a : A) (child_nodes : list (gnode A)).
Arguments GNode {A}.
(** The fields of a node, common_models.py 6-7. *)
Definition gn_data {A} (n : gnode A) : A := let 'GNode a _ := n in a.
(** common_models.py 7. *)
Definition gn_children {A} (n : gnode A) : list (gnode A) := let 'GNode _ c := n in c.
(** ActivityNode and EventClassNode are GraphNodes, patterns_models.py 26-34, 80-82. *)
Fixpoint of_activity (a : anode ndata) : gnode ndata :=
  match a with ANode d _ c => GNode d (map of_activity c) end.
(** patterns_models.py 80-82. *)
Fixpoint of_class (n : class_node) : gnode pystr :=
  match n with CNode x c => GNode x (map of_class c) end.

(** The calls on a Digraph: edge(tail, head) and node(name).  patterns_graphs.py 215-237. *)
Inductive gcall := Edge (tail head : pystr) | Node (name : pystr).

Section Build.
  Context {A : Type}.
  Variable node_name_creator : gnode A -> pystr.

  (** current_graph.edge(name, parent_node) unless parent_node is None, patterns_graphs.py 218-219, 225-226. *)
  Definition edge_to (name : pystr) (parent_node : option pystr) : list gcall :=
    match parent_node with Some p => [Edge name p] | None => [] end.
  (** add_node, patterns_graphs.py 215-230: added_names and the calls so far. *)
  Fixpoint add_node (parent_node : option pystr) (node : gnode A) (st : list pystr * list gcall) : list pystr * list gcall :=
    match node with
    | GNode a child_nodes =>
        let name := node_name_creator (GNode a child_nodes) in
        if existsb (str_eqb name) (fst st) then (fst st, snd st ++ edge_to name parent_node)
        else fold_left (fun st' child => add_node (Some name) child st') child_nodes
               (fst st ++ [name], snd st ++ edge_to name parent_node ++ [Node name])
    end.
  (** build_graph, patterns_graphs.py 207-236. *)
  Definition build_graph (nodes : list (gnode A)) (add_root_node : bool) : list gcall :=
    let root_name := if add_root_node then Some (str "root") else None in
    snd (fold_left (fun st n => add_node root_name n st) nodes ([], [])).
End Build.

(** default_node_name_creator, patterns_graphs.py 184-185, for both kinds of nodes. *)
Definition activity_node_name (n : gnode ndata) : pystr := nd_name (gn_data n).
(** patterns_graphs.py 184-185. *)
Definition class_node_name (n : gnode pystr) : pystr := gn_data n.
(** create_name of draw_activity_graph, patterns_graphs.py 169-174; hash(node) is patterns_models.py 48-49
    (below 2^61 - 1, so not changed by hash()). *)
Definition create_name (use_hashes_as_name : bool) (n : gnode ndata) : pystr :=
  if use_hashes_as_name then show_int (Z.of_N (string_poly_hash (nd_name (gn_data n))))
  else str_join (str "
") (split_go activity_name_sep (nd_name (gn_data n)) 0 []).
(** DrawActivitiesGraph.execute, patterns_parts.py 319-326, draw_activity_graph and _draw_graph,
    patterns_graphs.py 164-195. *)
Definition draw_activity_graph (activities : list (anode ndata)) (use_hashes_as_name add_root_node : bool) : list gcall :=
  build_graph (create_name use_hashes_as_name) (map of_activity activities) add_root_node.

(** BuildActivityGraph.execute, patterns_graph_parts.py 42-51. *)
Definition build_activity_graph (level : Z) (add_root_node : bool) (node_name_creator : gnode ndata -> pystr)
    (activities : list (anode ndata)) : result (list gcall) :=
  bind (get_activities_for_level activities level) (fun l =>
  Ok (build_graph node_name_creator (map of_activity l) add_root_node)).
(** BuildEventClassGraph.execute, patterns_graph_parts.py 152-159, on the tree of BuildEventClassTree, 117-119. *)
Definition build_event_class_graph (tree : list class_node) (add_root_node : bool) : list gcall :=
  build_graph class_node_name (map of_class tree) add_root_node.

(** p.rfind(c): the position behind the last c, 0 when there is none (Python: one less).  Used in legacy/pipelines/analysis/patterns/patterns_graph_parts.py 55. *)
Fixpoint behind_last (c : N) (p : pystr) (i found : nat) : nat :=
  match p with
  | [] => found
  | x :: r => behind_last c r (S i) (if N.eqb x c then S i else found)
  end.
(** os.path.splitext of the posixpath module (CPython's genericpath._splitext): the extension starts at the
    last dot, if it is in the last component and something other than dots stands before it there.  Called in legacy/pipelines/analysis/patterns/patterns_graph_parts.py 55. *)
Definition splitext (p : pystr) : pystr * pystr :=
  let sep := behind_last 47 p 0 0 in
  let dot := behind_last 46 p 0 0 in
  if (sep <? dot) && existsb (fun x => negb (N.eqb x 46)) (slice_of p sep (dot - 1))
  then (firstn (dot - 1) p, skipn (dot - 1) p) else (p, []).
(** default_activities_level_save_path_mutator, patterns_graph_parts.py 54-58. *)
Definition level_save_path (base_path : pystr) (activity_level : Z) : pystr :=
  let names := splitext base_path in
  fst names ++ str "_" ++ show_int activity_level ++ snd names.

(** DrawActivitiesGraphByEventClassLevels.execute, patterns_graph_parts.py 76-91: the graphs drawn with
    their paths.  use_hashes_as_name, 72, is stored and not read. *)
Definition draw_by_levels (use_hashes_as_name add_root_node : bool) (node_name_creator : gnode ndata -> pystr)
    (save_path : option pystr) (save_path_mutator : pystr -> Z -> pystr) (activities : list (anode ndata))
    : result (list (option pystr * list gcall)) :=
  mapM (fun p =>
    let current_save_path := match save_path with Some s => Some (save_path_mutator s (fst p)) | None => None end in
    bind (build_activity_graph (fst p) add_root_node node_name_creator activities) (fun g => Ok (current_save_path, g)))
  (split_activities_by_level activities).

(** str(graph): the library's text of a Digraph, one line per call between the opening line and the closing
    brace.  How a call is written ([render], with quotes and escapes) and the opening line are the library's.  Called in legacy/pipelines/analysis/patterns/patterns_graph_parts.py 109. *)
Definition graph_source (render : gcall -> pystr) (opening : pystr) (g : list gcall) : pystr :=
  opening ++ str "
" ++ flat_map (fun c => render c ++ str "
") g ++ str "}
".
(** serialize_graphviz_graph, patterns_graph_parts.py 108-110, on the text of the graph. *)
Definition serialize_graphviz_graph (source : pystr) : pystr :=
  let lines := split_go (str "
") source 0 [] in
  str_join (str "
") (sort_strs (slice_of lines 1 (length lines - 1))).
