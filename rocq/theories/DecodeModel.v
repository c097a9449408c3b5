(** The frontend's readers of backend values (grpc_pipelines/context_values.py 104-255), what the
    callbacks of the parts do with them, and the drawing of nets and graphs
    (legacy/discovery/petri_net.py 80-125, legacy/discovery/graph.py 24-42).

    Not modelled: graphviz itself (a diagram is the sequence of its node and edge calls), pandas beyond
    the shape below, matplotlib and the dimension reduction behind the dataset pictures. *)
From Verif Require Import Py XesModel ConstModel WireModel ClientModel.

(** * context_values.py *)

(** from_grpc_names_log, grpc_pipelines/context_values.py 104-113. *)
Definition from_grpc_names_log (log : list (list pystr)) : list (list pystr) :=
  map (fun trace => map (fun event => event) trace) log.

(** Color, event_log_analysis.py 21-28. *)
Record color := mkColor { co_red : Z; co_green : Z; co_blue : Z }.
(** ColoredRectangle, event_log_analysis.py 31-36. *)
Record crect := mkCRect { cr_color : color; cr_start : Z; cr_length : Z; cr_name : pystr }.
(** from_grpc_color, grpc_pipelines/context_values.py 145-146. *)
Definition from_grpc_color (c : gcolor) : color := mkColor (gc_red c) (gc_green c) (gc_blue c).
(** from_grpc_colored_rectangle, grpc_pipelines/context_values.py 140-142. *)
Definition from_grpc_colored_rectangle (r : grect) : crect :=
  mkCRect (from_grpc_color (gr_color r)) (gr_start r) (gr_length r) (gr_name r).
(** from_grpc_colors_log, grpc_pipelines/context_values.py 128-137. *)
Definition from_grpc_colors_log (log : list (list grect)) : list (list crect) :=
  map (map from_grpc_colored_rectangle) log.

(** EventLogInfo, grpc_pipelines/context_values.py 116-120. *)
Record loginfo := mkInfo { li_events : Z; li_classes : Z; li_traces : Z }.
(** from_grpc_event_log_info, grpc_pipelines/context_values.py 149-152. *)
Definition from_grpc_event_log_info (i : ginfo) : loginfo := mkInfo (gi_events i) (gi_classes i) (gi_traces i).

(** Place, petri_net.py 18-21. *)
Record place := mkPlace { pl_id : Z; pl_name : pystr }.
(** Arc, legacy/discovery/petri_net.py 32-36. *)
Record arc := mkArc { ar_id : Z; ar_place : Z; ar_tokens : Z }.
(** Transition, legacy/discovery/petri_net.py 24-29. *)
Record transition := mkTransition { tr_id : Z; tr_in : list arc; tr_out : list arc; tr_data : option pystr }.
(** SinglePlaceMarking, legacy/discovery/petri_net.py 44-47. *)
Record single := mkSingle { sm_place : Z; sm_tokens : Z }.
(** PetriNet (a Marking is its list), legacy/discovery/petri_net.py 10-15, 39-41. *)
Record petri_net := mkNet { pn_places : dict Z place; pn_transitions : dict Z transition;
                            pn_initial : option (list single); pn_final : option (list single) }.

(** from_grpc_petri_net_place, grpc_pipelines/context_values.py 171-172. *)
Definition from_grpc_petri_net_place (p : Z * pystr) : place := mkPlace (fst p) (snd p).
(** from_grpc_arc, grpc_pipelines/context_values.py 187-188. *)
Definition from_grpc_arc (a : garc) : arc := mkArc (ga_id a) (ga_place a) (ga_tokens a).
(** from_grpc_transition, grpc_pipelines/context_values.py 175-184. *)
Definition from_grpc_transition (t : gtransition) : transition :=
  mkTransition (gt_id t) (fold_left (fun l a => l ++ [from_grpc_arc a]) (gt_in t) [])
    (fold_left (fun l a => l ++ [from_grpc_arc a]) (gt_out t) []) (Some (gt_data t)).
(** from_grpc_single_marking, grpc_pipelines/context_values.py 198-199. *)
Definition from_grpc_single_marking (m : Z * Z) : single := mkSingle (fst m) (snd m).
(** try_from_grpc_marking, grpc_pipelines/context_values.py 191-195.  Its argument is the field of a message, which is never None: an
    unset field reads as an empty GrpcPetriNetMarking. *)
Definition try_from_grpc_marking (m : option (list (Z * Z))) : option (list single) :=
  let markings := match m with Some l => l | None => [] end in
  Some (map from_grpc_single_marking markings).
(** from_grpc_petri_net, grpc_pipelines/context_values.py 155-168. *)
Definition from_grpc_petri_net (p : gpetri) : petri_net :=
  mkNet
    (fold_left (fun d g => let x := from_grpc_petri_net_place g in dset Z.eq_dec d (pl_id x) x) (gp_places p) [])
    (fold_left (fun d g => let x := from_grpc_transition g in dset Z.eq_dec d (tr_id x) x) (gp_transitions p) [])
    (try_from_grpc_marking (gp_initial p)) (try_from_grpc_marking (gp_final p)).

(** GraphNode, graph.py 13-16. *)
Record gnode := mkNode { nd_id : Z; nd_data : pystr }.
(** GraphEdge, graph.py 18-22. *)
Record gedge := mkEdge { ed_from : Z; ed_to : Z; ed_data : pystr }.
(** Graph, graph.py 8-11. *)
Record graph := mkGraph { g_nodes : list gnode; g_edges : list gedge }.
(** from_grpc_graph, grpc_pipelines/context_values.py 247-255. *)
Definition from_grpc_graph (g : ggraph) : graph :=
  mkGraph (fold_left (fun l n => l ++ [mkNode (fst n) (snd n)]) (gg_nodes g) [])
    (fold_left (fun l e => l ++ [mkEdge (fst (fst e)) (snd (fst e)) (snd e)]) (gg_edges g) []).

(** A cell of a DataFrame: a float of the matrix or a label.  grpc_pipelines/context_values.py 218-245. *)
Inductive cell := CellFloat (f : pyfloat) | CellInt (z : Z).
(** pandas.DataFrame: names of columns, names of rows, cells by row.  grpc_pipelines/context_values.py 235. *)
Record frame := mkFrame { fr_columns : list pystr; fr_index : list pystr; fr_rows : list (list cell) }.
(** pd.DataFrame(data, columns=columns, index=index).  Simplified: rows that are not all as long as
    [columns], or an index of another length, count as ValueError (pandas pads shorter rows).  grpc_pipelines/context_values.py 235. *)
Definition data_frame (data : list (list cell)) (columns index : list pystr) : result frame :=
  if forallb (fun row => length row =? length columns) data && (length index =? length data)
  then Ok (mkFrame columns index data) else Err ValueError.
(** from_grpc_ficus_dataset, grpc_pipelines/context_values.py 218-235. *)
Definition from_grpc_ficus_dataset (d : gdataset) : result frame :=
  data_frame (map (map CellFloat) (gd_rows d)) (gd_columns d) (gd_names d).
(** Replacing in one row the cells of the columns named [name].  grpc_pipelines/context_values.py 244. *)
Fixpoint replace_cells (name : pystr) (columns : list pystr) (row : list cell) (c : cell) : list cell :=
  match columns, row with
  | n :: columns', x :: row' => (if str_eqb n name then c else x) :: replace_cells name columns' row' c
  | _, _ => row
  end.
(** df[name] = values: ValueError when the lengths differ; an existing column is replaced, a new one is
    put last.  grpc_pipelines/context_values.py 244. *)
Definition set_column (df : frame) (name : pystr) (values : list cell) : result frame :=
  if negb (length values =? length (fr_rows df)) then Err ValueError
  else if existsb (str_eqb name) (fr_columns df)
  then Ok (mkFrame (fr_columns df) (fr_index df)
             (map (fun rv => replace_cells name (fr_columns df) (fst rv) (snd rv)) (combine (fr_rows df) values)))
  else Ok (mkFrame (fr_columns df ++ [name]) (fr_index df)
             (map (fun rv => fst rv ++ [snd rv]) (combine (fr_rows df) values))).
(** from_grpc_labeled_dataset, grpc_pipelines/context_values.py 238-245. *)
Definition from_grpc_labeled_dataset (d : glabeled) : result frame :=
  bind (from_grpc_ficus_dataset (gl_dataset d)) (fun df =>
  set_column df const_cluster_labels (map CellInt (gl_labels d))).

(** from_grpc_count_annotation, grpc_pipelines/context_values.py 202-207. *)
Definition from_grpc_count_annotation (l : list (Z * Z)) : dict Z pystr :=
  fold_left (fun m a => dset Z.eq_dec m (fst a) (show_int (snd a))) l [].

(** * Drawing *)

(** One call on graphviz.Digraph.  legacy/discovery/petri_net.py 101-118. *)
Inductive gvcall :=
| GvNode (name label shape : pystr) (filled : bool)
| GvEdge (tail head label : pystr).

(** The label of a marked place, petri_net.py 101, 103. *)
Definition token_label : pystr := str "<&#9679;>".
(** x in the set built in legacy/discovery/petri_net.py 89-97. *)
Definition in_marking (m : option (list single)) (id : Z) : bool :=
  match m with Some l => existsb (fun s => Z.eqb (sm_place s) id) l | None => false end.
(** annotation[arc.id] if annotation is not None and arc.id in annotation else '', legacy/discovery/petri_net.py 113, 117. *)
Definition arc_label (annotation : option (dict Z pystr)) (a : arc) : pystr :=
  match annotation with
  | Some d => match dget Z.eq_dec d (ar_id a) with Some s => s | None => [] end
  | None => []
  end.
(** legacy/discovery/petri_net.py 99-106. *)
Definition draw_place (net : petri_net) (show_places_names : bool) (p : place) : gvcall :=
  if in_marking (pn_initial net) (pl_id p) then GvNode (show_int (pl_id p)) token_label (str "circle") true
  else if in_marking (pn_final net) (pl_id p)
  then GvNode (show_int (pl_id p)) token_label (str "doublecircle") true
  else GvNode (show_int (pl_id p)) (if show_places_names then pl_name p else []) (str "circle") true.
(** data is never None after decoding (context_values.py 183).  legacy/discovery/petri_net.py 109. *)
Definition draw_transition (t : transition) : gvcall :=
  GvNode (show_int (tr_id t)) (match tr_data t with Some s => s | None => [] end) (str "box") false.
(** legacy/discovery/petri_net.py 111-118. *)
Definition draw_arcs (annotation : option (dict Z pystr)) (t : transition) : list gvcall :=
  map (fun a => GvEdge (show_int (ar_place a)) (show_int (tr_id t)) (arc_label annotation a)) (tr_in t) ++
  map (fun a => GvEdge (show_int (tr_id t)) (show_int (ar_place a)) (arc_label annotation a)) (tr_out t).
(** draw_petri_net, legacy/discovery/petri_net.py 80-118. *)
Definition draw_petri_net (net : petri_net) (show_places_names : bool) (annotation : option (dict Z pystr))
  : list gvcall :=
  map (draw_place net show_places_names) (dvalues (pn_places net)) ++
  map draw_transition (dvalues (pn_transitions net)) ++
  flat_map (draw_arcs annotation) (dvalues (pn_transitions net)).
(** draw_graph, graph.py 24-35. *)
Definition draw_graph (g : graph) : list gvcall :=
  map (fun n => GvNode (show_int (nd_id n)) (nd_data n) (str "circle") true) (g_nodes g) ++
  map (fun e => GvEdge (show_int (ed_from e)) (show_int (ed_to e)) (ed_data e)) (g_edges g).

(** * Callbacks *)

(** Attributes of a part that only its callback uses: show_places_names and annotation of ViewPetriNet2
    (discovery_parts.py 132-142), show_visualization of the clusterization parts (activities_parts.py 272). *)
Record vopts := mkOpts { vo_names : bool; vo_annotation : option (dict Z pystr); vo_show : bool }.

(** What a callback puts before the user.  grpc_pipelines/activities_parts.py 241-242, 283-296, 510-516; discovery_parts.py 122-216; grpc_pipelines.py 153-195; util_parts.py 20-22. *)
Inductive shown :=
| ShNothing
| ShCalls (l : list gvcall)
| ShColors (canvas : bool) (log : list (list crect))
| ShPrint (line : pystr)
| ShNames (log : list (list pystr))
| ShInfo (i : loginfo)
| ShDataset (df : frame) (colors : dict Z color) (labels : option pystr).

(** The colours of the labels, activities_parts.py 290-292. *)
Definition label_colors (d : glabeled) : dict Z color :=
  fold_left (fun m lc => dset Z.eq_dec m (fst lc) (from_grpc_color (snd lc)))
    (combine (gl_labels d) (gl_colors d)) [].

Section Repr.
  (** str(float). *)
  Variable float_repr : pyfloat -> pystr.

  (** from_grpc_frequency_annotation, grpc_pipelines/context_values.py 210-215. *)
  Definition from_grpc_frequency_annotation (l : list (Z * pyfloat)) : dict Z pystr :=
    fold_left (fun m a => dset Z.eq_dec m (fst a) (float_repr (snd a))) l [].

  (** get_annotation of the three classes, discovery_parts.py 246-247, 264-265, 282-283. *)
  Definition get_annotation (k : annotation_kind) (v : gvalue) : dict Z pystr :=
    match k with
    | ACount => from_grpc_count_annotation (as_counts v)
    | AFrequency | ATraceFrequency => from_grpc_frequency_annotation (as_freqs v)
    end.

  (** values[key].  grpc_pipelines/activities_parts.py 242, 287 and others. *)
  Definition pick (values : dict pystr gvalue) (key : pystr) : result gvalue := dgetitem str_eq_dec values key.

  (** ClusterizationPartWithVisualization2.execute_callback, activities_parts.py 283-296. *)
  Definition show_labeled (o : vopts) (key : pystr) (values : dict pystr gvalue) : result shown :=
    if negb (vo_show o) then Ok ShNothing
    else bind (pick values key) (fun v =>
         bind (from_grpc_labeled_dataset (as_labeled v)) (fun df =>
         Ok (ShDataset df (label_colors (as_labeled v)) (Some const_cluster_labels)))).

  (** The execute_callback methods without an inner pipeline.  The file and lines are at each case, from grpc_pipelines/activities_parts.py 241-242 on. *)
  Definition leaf_show (o : vopts) (l : leaf) (values : dict pystr gvalue) : result shown :=
    match l with
    (* activities_parts.py 241-242 *)
    | LPrintUnderlyingCount =>
        bind (pick values const_underlying_events_count) (fun v =>
        Ok (ShPrint (str "Underlying events count: " ++ show_int (as_uint32 v))))
    (* 283-296 *)
    | LKMeans _ _ _ | LKMeansGrid _ _ | LDbscan _ _ =>
        show_labeled o const_labeled_traces_activities_dataset values
    (* 510-516 *)
    | LVisualize _ _ _ =>
        bind (pick values const_traces_activities_dataset) (fun v =>
        bind (from_grpc_ficus_dataset (as_dataset v)) (fun df => Ok (ShDataset df [] None)))
    (* discovery_parts.py 148-156 *)
    | LViewPetriNet =>
        bind (pick values const_petri_net) (fun v =>
        Ok (ShCalls (draw_petri_net (from_grpc_petri_net (as_petri_net v)) (vo_names o) (vo_annotation o))))
    (* 122-128 *)
    | LViewDfg | LViewGraph =>
        bind (pick values const_graph) (fun v => Ok (ShCalls (draw_graph (from_grpc_graph (as_graph v)))))
    (* 206-216 *)
    | LAnnotate k _ =>
        bind (pick values const_petri_net) (fun n =>
        bind (pick values (annotation_key k)) (fun v =>
        Ok (ShCalls (draw_petri_net (from_grpc_petri_net (as_petri_net n)) (vo_names o)
                       (Some (get_annotation k v))))))
    (* grpc_pipelines.py 153-160, 177-184 *)
    | LDiversity canvas | LPlacementsByName canvas _ | LPlacementsByRegex canvas _
    | LFullDiagram canvas | LShortDiagram canvas =>
        bind (pick values const_colors_event_log) (fun v =>
        Ok (ShColors canvas (from_grpc_colors_log (as_colors v))))
    (* util_parts.py 20-22 *)
    | LPrintLog =>
        bind (pick values const_names_event_log) (fun v => Ok (ShNames (as_names_log v)))
    (* grpc_pipelines.py 193-195 *)
    | LPrintInfo =>
        bind (pick values const_event_log_info) (fun v => Ok (ShInfo (from_grpc_event_log_info (as_info v))))
    (* grpc_pipelines.py 131-132; the other classes have no execute_callback *)
    | LAbstract true => Err NotImplementedErr
    | _ => Err AttributeError
    end.

  (** execute_callback of every class.  grpc_pipelines/activities_parts.py 283-296, 510-516, and the cases above. *)
  Definition part_show (o : vopts) (p : part) (values : dict pystr gvalue) : result shown :=
    match p with
    | PLeaf _ l => leaf_show o l values
    | PLogDbscan _ _ _ => show_labeled o const_labeled_log_traces_dataset values
    | _ => Err AttributeError
    end.
End Repr.
