(** C56: graphs of activities and of event classes. *)
From Coq Require Import Permutation Sorted.
From Verif Require Import Py XesModel LogModel HashModel PatternModel TreeModel TreeSpec ActModel ActLogModel InfoModel ClassModel ClassSpec HighModel HighSpec
  GraphModel GraphSpec GraphProofs.

(** Whatever the names: the graph shows nodes with pairwise different names, among them one for every top
    node and for every child of a shown one, every shown node with an edge from each of its children. *)
Theorem C56_shown : forall A (name : gnode A -> pystr) tops add_root,
  exists shown, closed_choice name tops shown /\ shows name tops add_root shown (build_graph name tops add_root).
Proof. exact @build_shows. Qed.
Print Assumptions C56_shown.

(** With pairwise different names: all nodes of the forest, in preorder. *)
Theorem C56_exact : forall A (name : gnode A -> pystr) tops add_root, NoDup (map name (forest tops)) ->
  shows name tops add_root (forest tops) (build_graph name tops add_root).
Proof. exact @graph_exact_proof. Qed.
Print Assumptions C56_exact.

Definition node_ (n : string) (c : list (gnode pystr)) : gnode pystr := GNode (str n) c.
Example C56_case : build_graph class_node_name [node_ "ab" [node_ "a" []; node_ "b" []]; node_ "c" []] true =
  [Edge (str "ab") (str "root"); Node (str "ab"); Edge (str "a") (str "ab"); Node (str "a"); Edge (str "b") (str "ab"); Node (str "b");
   Edge (str "c") (str "root"); Node (str "c")].
Proof. vm_compute. reflexivity. Qed.
Example C56_case_names : NoDup (map class_node_name (forest [node_ "ab" [node_ "a" []; node_ "b" []]; node_ "c" []])).
Proof. cbn. repeat constructor; cbn; intuition discriminate. Qed.

(** Two nodes of the same name: the second one is merged into the first and its children are lost. *)
Theorem C56_same_name_refuted : exists tops : list (gnode pystr),
  exists n, In n (forest tops) /\ ~ In (class_node_name n) (drawn (build_graph class_node_name tops true)).
Proof.
  exists [node_ "a" []; node_ "a" [node_ "b" []]], (node_ "b" []). split; [cbn; auto|]. vm_compute. intuition discriminate.
Qed.
Print Assumptions C56_same_name_refuted.

(** Activities discovered in a log whose classes hold no ':' : the graph shows all of them, one node per
    repeat set, under their names (BuildActivityGraph), under their parts below each other or under their
    hashes, if these differ (DrawActivitiesGraph). *)
Definition discovered ce level l hs patterns g F g' : Prop :=
  hashes_traces ce l = Ok hs /\ activities_tree ce level l (create_repeat_sets hs patterns) g = Ok (F, g').
Theorem C56_discovered_names : forall ce level l hs patterns g F g', discovered ce level l hs patterns g F g' ->
  all_classes bare ce l -> NoDup (map (fun n => nd_name (an_data n)) (everywhere F)).
Proof. intros ce level l hs patterns g F g' [H1 H2] H3. exact (discovered_names ce level l H3 hs patterns g F g' H1 H2). Qed.
Print Assumptions C56_discovered_names.

Theorem C56_discovered_graph : forall ce level l hs patterns g F g' add_root, discovered ce level l hs patterns g F g' ->
  all_classes bare ce l ->
  let gr := build_graph activity_node_name (map of_activity F) add_root in
  shows activity_node_name (map of_activity F) add_root (map of_activity (everywhere F)) gr /\
  length (drawn gr) = length (create_repeat_sets hs patterns).
Proof.
  intros ce level l hs patterns g F g' add_root [H1 H2] H3. cbv zeta. pose proof (default_graph ce level l hs patterns g g' F H1 H2 add_root H3) as H. split; [exact H|].
  rewrite (proj1 H), map_length, <- forest_of_activities. exact (count_forest ce level l hs patterns g g' F H2).
Qed.
Print Assumptions C56_discovered_graph.

Theorem C56_discovered_drawn : forall ce level l hs patterns g F g' add_root, discovered ce level l hs patterns g F g' ->
  all_classes legible ce l ->
  shows (create_name false) (map of_activity F) add_root (map of_activity (everywhere F)) (draw_activity_graph F false add_root).
Proof. intros ce level l hs patterns g F g' add_root [H1 H2]. exact (drawn_graph ce level l hs patterns g g' F H1 H2 add_root). Qed.
Print Assumptions C56_discovered_drawn.

Theorem C56_discovered_hashes : forall ce level l hs patterns g F g' add_root, discovered ce level l hs patterns g F g' ->
  all_classes bare ce l ->
  (forall a b, In a (everywhere F) -> In b (everywhere F) ->
     string_poly_hash (nd_name (an_data a)) = string_poly_hash (nd_name (an_data b)) -> nd_name (an_data a) = nd_name (an_data b)) ->
  shows (create_name true) (map of_activity F) add_root (map of_activity (everywhere F)) (draw_activity_graph F true add_root).
Proof. intros ce level l hs patterns g F g' add_root [H1 H2]. exact (hashed_graph ce level l hs patterns g g' F H1 H2 add_root). Qed.
Print Assumptions C56_discovered_hashes.

(** A log of one trace with the given names, and the class of an event. *)
Definition log_ (ns : list pystr) : eventlog := log_of_traces [trace_of_events (map (fun n => [(concept_name, VStr n)]) ns)].
Definition chars (s : string) : list pystr := map (fun c => [c]) (str s).
Definition name_class (e : event) : result pystr := match eget e concept_name with Some (VStr s) => Ok s | _ => Err KeyError end.
(** All tandem arrays. *)
Definition tandems (hs : list (list N)) : list (list sub_array) :=
  map (fun t => map (fun a => mkSub (ta_first_pos a) (ta_length a)) (maximal_tandem_arrays_of_trace t 10)) hs.
Example C56_discovered_case : exists hs F g', discovered name_class 0 (log_ (chars "ababcabc")) hs (tandems hs) (mkGlobals 5 0) F g' /\
  all_classes legible name_class (log_ (chars "ababcabc")) /\
  draw_activity_graph F false true = [Edge (str "a
b
c") (str "root"); Node (str "a
b
c"); Edge (str "a
b") (str "a
b
c"); Node (str "a
b")] /\
  draw_activity_graph F true false = [Node (show_int 496983053); Edge (show_int 3007935) (show_int 496983053); Node (show_int 3007935)].
Proof.
  eexists _, _, _. split; [split; vm_compute; reflexivity|]. split; [|split; vm_compute; reflexivity].
  intros t e c [<-|[]] He E. cbn in He. repeat (destruct He as [<-|He]; [vm_compute in E; injection E as <-; split; [split; [discriminate|]|]; cbn; intuition discriminate|]). destruct He.
Qed.

(** The classes "a", "b" and "a::b": the activities {a, b} and {a::b} are drawn as one. *)
Theorem C56_separator_refuted : exists l hs F g', discovered name_class 0 l hs (tandems hs) (mkGlobals 0 0) F g' /\
  length (everywhere F) = 2 /\ length (drawn (build_graph activity_node_name (map of_activity F) true)) = 1.
Proof.
  exists (log_ [str "a"; str "b"; str "a"; str "b"; str "a::b"; str "a::b"; str "a::b"; str "a::b"]).
  eexists _, _, _. split; [split; vm_compute; reflexivity|]. split; vm_compute; reflexivity.
Qed.
Print Assumptions C56_separator_refuted.

(** Hashes as names: the activities {A, U+7531} and {U+74A0, U+7530} have different classes, none of which
    share a hash, but the same hash of their names, and are drawn as one node. *)
Theorem C56_hashes_refuted : exists l hs F g', discovered name_class 0 l hs (tandems hs) (mkGlobals 0 0) F g' /\
  all_classes bare name_class l /\
  (forall a b, In a (concat (map t_events (l_traces l))) -> In b (concat (map t_events (l_traces l))) ->
     forall c d, name_class a = Ok c -> name_class b = Ok d -> string_poly_hash c = string_poly_hash d -> c = d) /\
  length (everywhere F) = 2 /\ length (drawn (draw_activity_graph F true true)) = 1.
Proof.
  exists (log_ [[65]; [30001]; [65]; [30001]; [29856]; [30000]; [29856]; [30000]])%N.
  eexists _, _, _. split; [split; vm_compute; reflexivity|]. split; [|split; [|split; vm_compute; reflexivity]].
  - intros t e c [<-|[]] He E. cbn in He. repeat (destruct He as [<-|He]; [vm_compute in E; injection E as <-; split; [discriminate|]; cbn; intuition discriminate|]). destruct He.
  - assert (K : forall e, In e (concat (map t_events (l_traces (log_ [[65]; [30001]; [65]; [30001]; [29856]; [30000]; [29856]; [30000]]%N)))) ->
      exists x, name_class e = Ok [x] /\ In x [65; 30001; 29856; 30000]%N).
    { intros e He. cbn in He. repeat (destruct He as [<-|He]; [eexists; split; [vm_compute; reflexivity|cbn; tauto]|]). destruct He. }
    intros a b Ha Hb c d Hc Hd E. destruct (K a Ha) as [x [Ex Ix]], (K b Hb) as [y [Ey Iy]]. rewrite Ex in Hc. rewrite Ey in Hd. injection Hc as <-. injection Hd as <-.
    cbn in Ix, Iy. repeat (destruct Ix as [<-|Ix]; [repeat (destruct Iy as [<-|Iy]; [first [reflexivity|discriminate E]|]); destruct Iy|]). destruct Ix.
Qed.
Print Assumptions C56_hashes_refuted.

(** The graph of the tree of event classes: when no class is on two layers, its nodes are the classes of
    all layers and its edges lead from every class to its class on the next layer (and from the top to
    the root), all of them once. *)
Theorem C56_class_graph : forall order, (forall l, Permutation (order l) l) -> forall log exts roots add_root,
  build_class_tree order log exts = Ok roots -> layers_apart log exts ->
  let g := build_event_class_graph roots add_root in
  NoDup (drawn g) /\ (forall m, In m (drawn g) <-> exists j, j <= length exts /\ class_at log exts j m) /\
  NoDup (arrows g) /\
  (forall a b, In (a, b) (arrows g) <->
     (add_root = true /\ b = str "root" /\ class_at log exts (length exts) a) \/
     exists j ex, nth_error exts j = Some ex /\ class_at log exts j a /\ ex a = Ok b).
Proof. exact class_graph_proof. Qed.
Print Assumptions C56_class_graph.

(** A class that is its own class on the next layer keeps the classes below it out of the graph. *)
Definition cut (n : nat) (c : pystr) : result pystr := Ok (firstn n c).
Theorem C56_class_kept_refuted : exists log exts roots m, build_class_tree (fun l => l) log exts = Ok roots /\
  class_at log exts 0 m /\ ~ In m (drawn (build_event_class_graph roots true)).
Proof.
  exists [[str "xy"; str "xz"]], [cut 1; cut 1]. eexists _, (str "xy"). split; [vm_compute; reflexivity|]. split.
  - exists (str "xy"). split; [left; reflexivity|reflexivity].
  - vm_compute. intuition discriminate.
Qed.
Print Assumptions C56_class_kept_refuted.

(** The order of the set of classes does not matter for the serialized graph, if no class is on two layers. *)
Theorem C56_class_graph_stable : forall order order', (forall l, Permutation (order l) l) -> (forall l, Permutation (order' l) l) ->
  forall log exts roots roots' add_root render opening, layers_apart log exts ->
  build_class_tree order log exts = Ok roots -> build_class_tree order' log exts = Ok roots' -> line opening -> (forall c, line (render c)) ->
  serialize_graphviz_graph (graph_source render opening (build_event_class_graph roots add_root)) =
  serialize_graphviz_graph (graph_source render opening (build_event_class_graph roots' add_root)).
Proof. exact class_graph_stable_proof. Qed.
Print Assumptions C56_class_graph_stable.

Example C56_class_case : let log := [chars "ab"; [str "ac"]] in let exts := [cut 0] in
  layers_apart log exts /\ exists r, build_class_tree (fun l => l) log exts = Ok r /\
    build_event_class_graph r true = [Edge [] (str "root"); Node []; Edge (str "a") []; Node (str "a"); Edge (str "b") []; Node (str "b"); Edge (str "ac") []; Node (str "ac")].
Proof.
  cbv zeta. split.
  - intros i j m Hi Hj [n [Hn E]] [n' [Hn' E']]. cbn in Hi, Hj.
    destruct i as [|[|i]], j as [|[|j]]; try lia; exfalso; cbn in E, E'; injection E as <-; injection E' as E'; cbn in Hn, Hn'; destruct Hn as [<-|[<-|[<-|[]]]], Hn' as [<-|[<-|[<-|[]]]]; discriminate.
  - eexists. split; vm_compute; reflexivity.
Qed.

(** Otherwise it does: which of two classes of the same name is found first decides what is drawn. *)
Theorem C56_class_order_refuted : exists order order' : list pystr -> list pystr, (forall l, Permutation (order l) l) /\ (forall l, Permutation (order' l) l) /\
  exists log exts roots roots', build_class_tree order log exts = Ok roots /\ build_class_tree order' log exts = Ok roots' /\
  exists render opening, line opening /\ (forall c, In c (build_event_class_graph roots true ++ build_event_class_graph roots' true) -> line (render c)) /\
    serialize_graphviz_graph (graph_source render opening (build_event_class_graph roots true)) <>
    serialize_graphviz_graph (graph_source render opening (build_event_class_graph roots' true)).
Proof.
  exists (fun l => l), (@rev _). split; [intros l; reflexivity|]. split; [intros l; apply Permutation_sym, Permutation_rev|].
  (* x is below its class m; y is below x *)
  set (up := fun c : pystr => if str_eqb c (str "x") then Ok (str "m") else if str_eqb c (str "y") then Ok (str "x") else Ok c).
  set (top := fun c : pystr => if str_eqb c (str "m") then Ok (str "r1") else Ok (str "r2")).
  exists [[str "x"; str "y"]], [up; top]. eexists _, _. split; [vm_compute; reflexivity|]. split; [vm_compute; reflexivity|].
  exists (fun c => match c with Node n => n | Edge a b => a ++ str "->" ++ b end), (str "g"). split; [vm_compute; intuition discriminate|]. split.
  - intros c Hc. vm_compute in Hc. repeat (destruct Hc as [<-|Hc]; [vm_compute; intuition discriminate|]). destruct Hc.
  - vm_compute. discriminate.
Qed.
Print Assumptions C56_class_order_refuted.

(** Serialized graphs are equal exactly when they consist of the same lines, in whatever order; the name
    of the graph plays no role. *)
Theorem C56_serialized : forall render opening opening' g g', line opening -> line opening' -> (forall c, In c (g ++ g') -> line (render c)) ->
  (serialize_graphviz_graph (graph_source render opening g) = serialize_graphviz_graph (graph_source render opening' g') <->
   Permutation (map render g) (map render g')).
Proof. exact serialized_proof. Qed.
Print Assumptions C56_serialized.
Example C56_serialized_case : serialize_graphviz_graph (graph_source (fun c => match c with Node n => n | Edge a b => a ++ str "->" ++ b end) (str "digraph {")
  [Edge (str "b") (str "root"); Node (str "b"); Node (str "a")]) = str "a
b
b->root
}".
Proof. vm_compute. reflexivity. Qed.

(** DrawActivitiesGraphByEventClassLevels draws one graph per level that occurs, levels ascending, of exactly
    the activities given for that level. *)
Theorem C56_levels : forall hashes add_root creator path mutator acts,
  exists ks, StronglySorted Z.lt ks /\ (forall k, In k ks <-> exists a, In a acts /\ nd_level (an_data a) = k) /\
    draw_by_levels hashes add_root creator path mutator acts =
      Ok (map (fun k => (option_map (fun s => mutator s k) path,
                         build_graph creator (map of_activity (filter (fun a => (nd_level (an_data a) =? k)%Z) acts)) add_root)) ks).
Proof. exact levels_proof. Qed.
Print Assumptions C56_levels.

(** The default paths of different levels differ; the level is put in front of the extension, which is the
    text from the last dot of the file name on (nothing if there is none). *)
Theorem C56_paths : forall p,
  (forall k k', level_save_path p k = level_save_path p k' -> k = k') /\
  exists stem ext, p = stem ++ ext /\ (ext = [] \/ exists e, ext = 46%N :: e /\ ~ In 46%N e /\ ~ In 47%N e) /\
    forall k, level_save_path p k = stem ++ str "_" ++ show_int k ++ ext.
Proof.
  intros p. split; [apply level_path_inj|]. destruct (splitext_spec p) as [H1 H2]. exists (fst (splitext p)), (snd (splitext p)). split; [symmetry; exact H1|].
  split; [exact H2|]. reflexivity.
Qed.
Print Assumptions C56_paths.
Example C56_paths_case : level_save_path (str "out.d/graph.png") (-2) = str "out.d/graph_-2.png" /\ level_save_path (str "out.d/graph") 1 = str "out.d/graph_1" /\
  level_save_path (str "out.d/.hidden") 1 = str "out.d/.hidden_1".
Proof. vm_compute. auto. Qed.

(** DrawActivitiesGraphByEventClassLevels(use_hashes_as_name=True): the nodes are not named by their hashes. *)
Theorem C56_levels_hashes_refuted : exists acts, exists p g a, draw_by_levels true true activity_node_name None level_save_path acts = Ok [(p, g)] /\
  In a acts /\ ~ In (show_int (Z.of_N (string_poly_hash (nd_name (an_data a))))) (drawn g).
Proof.
  exists [ANode (mkND (str "a::b") 0 (str "Activity_0") 0 (mkRS 0 2 0)) [1; 2]%N []]. eexists _, _, _. split; [vm_compute; reflexivity|]. split; [left; reflexivity|].
  vm_compute. intuition discriminate.
Qed.
Print Assumptions C56_levels_hashes_refuted.
