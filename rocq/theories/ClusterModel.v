(** Clusters of traces and of activities.

    Backend (paths without further mark are in src/rust/ficus_backend/src): utils/colors.rs 9-72,
    features/clustering/common.rs 41-70, features/clustering/traces/dbscan.rs 33-71,
    features/clustering/activities/merging.rs 18-136, activities/dbscan.rs 16-44, activities/k_means.rs 27-132.
    Client: legacy/analysis/event_log_analysis.py 383-539 (the scatter plots).

    Not modelled: the clustering algorithms of linfa and the dimension reduction of scikit-learn (a
    clustering is any list with one label per row, a reduction any function of the matrix), figure sizes,
    axes titles and view angles.  Simplified: reference counting (a node is its value; nodes of one
    clustering have different names). *)
From Coq Require Import QArith.
From Verif Require Import Py XesModel WireModel DecodeModel DrawModel ColorModel.
Close Scope Q_scope.

(** * Colours of clusters *)

(** Color, utils/colors.rs 5-10: three u8. *)
Notation rcolor := (Z * Z * Z)%type.
(** utils/colors.rs 5 (derived PartialEq). *)
Definition rcolor_eq_dec : forall a b : rcolor, {a = b} + {a <> b}.
Proof. repeat decide equality. Defined.
(** ColorsHolder, utils/colors.rs 49-52, and how many colours were drawn from the random generator. *)
Record holder := mkHolder { ho_names : dict pystr rcolor; ho_used : list rcolor; ho_drawn : nat }.
(** ColorsHolder::empty, utils/colors.rs 55-60. *)
Definition empty_holder (n : nat) : holder := mkHolder [] [] n.

(** create_cluster_name, features/clustering/common.rs 66-68. *)
Definition create_cluster_name (cluster_index : N) : pystr := str "CLUSTER_" ++ show_int (Z.of_N cluster_index).

Section Rng.
  (** The n-th colour made of three draws of thread_rng. *)
  Variable rng : nat -> rcolor.
  (** Bound on the draws of one call (the loop has none in the code). *)
  Variable fuel : nat.

  (** Color::random with a set of used colours, utils/colors.rs 21-39. *)
  Fixpoint random_color (f : nat) (used : list rcolor) (n : nat) : result (rcolor * nat) :=
    match f with
    | O => Err Diverges
    | S f' => let color := rng n in
              if in_dec rcolor_eq_dec color used then random_color f' used (S n) else Ok (color, S n)
    end.
  (** ColorsHolder::get_or_create, utils/colors.rs 62-71. *)
  Definition get_or_create (h : holder) (name : pystr) : result (rcolor * holder) :=
    match dget str_eq_dec (ho_names h) name with
    | Some existing_color => Ok (existing_color, h)
    | None =>
        bind (random_color fuel (ho_used h) (ho_drawn h)) (fun '(new_color, n) =>
        Ok (new_color, mkHolder (dset str_eq_dec (ho_names h) name new_color) (new_color :: ho_used h) n))
    end.
  (** create_colors_vector, features/clustering/common.rs 41-46. *)
  Fixpoint create_colors_vector (labels : list N) (h : holder) : result (list rcolor * holder) :=
    match labels with
    | [] => Ok ([], h)
    | x :: r => bind (get_or_create h (create_cluster_name x)) (fun '(c, h') =>
                bind (create_colors_vector r h') (fun '(cs, h'') => Ok (c :: cs, h'')))
    end.
End Rng.

(** * Clusters of traces *)

(** The label of a row: 0 for noise, features/clustering/traces/dbscan.rs 48-52 and activities/dbscan.rs 35-39. *)
Definition dbscan_label (x : option N) : N := match x with None => 0 | Some x => x + 1 end.
(** The logs of the clusters, features/clustering/traces/dbscan.rs 54-67; [order] is the order in which the
    HashMap gives its values. *)
Definition cluster_logs {T} (order : list (list T) -> list (list T)) (traces : list T) (labels : list N) : list (list T) :=
  order (dvalues (fold_left (fun new_logs tl => dpush N.eq_dec new_logs (snd tl) (fst tl)) (combine traces labels) [])).

(** The number of clusters chosen by the grid search, features/clustering/activities/k_means.rs 92-110: the
    loop from clusters_count on; [score] is the silhouette score of the clustering with that many clusters
    (None: silhouette_score failed).  Scores are rationals here (no NaN). *)
Fixpoint grid_search (score : nat -> option Q) (steps clusters_count : nat) (best : option nat) (best_metric : Q) : result (option nat) :=
  match steps with
  | O => Ok best
  | S steps' =>
      match score clusters_count with
      | None => Err UserError
      | Some s =>
          if Qle_bool s best_metric then grid_search score steps' (S clusters_count) best best_metric
          else grid_search score steps' (S clusters_count) (Some clusters_count) s
      end
  end.
(** features/clustering/activities/k_means.rs 90-131 for [objects] rows: an error when nothing was found. *)
Definition best_clusters_count (score : nat -> option Q) (objects : nat) : result nat :=
  bind (grid_search score (objects - 2) 2 None (-1)%Q) (fun best =>
  match best with Some k => Ok k | None => Err UserError end).

(** * Merging the activities of a cluster *)

(** ActivityNode, features/analysis/patterns/repeat_sets.rs 78-84: name, level, event classes and the place
    (trace, start, length) of its repeat set. *)
Record cnode := mkCNode { cn_name : pystr; cn_level : N; cn_classes : list N; cn_repeat : option (nat * nat * nat) }.
(** ActivityInTraceInfo, features/analysis/patterns/activity_instances.rs 21-25: node, start_pos, length. *)
Record cinst := mkCInst { ci_node : cnode; ci_start : nat; ci_length : nat }.

(** zip of the activities with their labels, noise left out: features/clustering/activities/merging.rs 27-28. *)
Definition labelled (processed : list cnode) (labels : list (option N)) : list (cnode * N) :=
  flat_map (fun al => match snd al with Some l => [(fst al, l)] | None => [] end) (combine processed labels).
(** activity_names_to_clusters, features/clustering/activities/merging.rs 24, 29. *)
Definition names_to_clusters (pairs : list (cnode * N)) : dict pystr N :=
  fold_left (fun d p => dset str_eq_dec d (cn_name (fst p)) (snd p)) pairs [].
(** clusters_to_activities, features/clustering/activities/merging.rs 25, 31-35. *)
Definition clusters_to_activities (pairs : list (cnode * N)) : dict N (list cnode) :=
  fold_left (fun d p => dpush N.eq_dec d (snd p) (fst p)) pairs [].
(** The events of the repeat set of an activity are read (their names end up in a list that is not used):
    features/clustering/activities/merging.rs 54-62.  unwrap and the slice panic out of range. *)
Definition read_repeat (trace_lengths : list nat) (activity : cnode) : result unit :=
  match cn_repeat activity with
  | None => Ok tt
  | Some (trace_index, start, len) =>
      match nth_error trace_lengths trace_index with
      | Some n => if start + len <=? n then Ok tt else Err IndexError
      | None => Err AssertionErr
      end
  end.
(** The node of a cluster with more than one activity, features/clustering/activities/merging.rs 47-79. *)
Definition cluster_node (trace_lengths : list nat) (cluster : N) (cluster_activities : list cnode) : result cnode :=
  bind (mapM (read_repeat trace_lengths) cluster_activities) (fun _ =>
  Ok (mkCNode (create_cluster_name cluster)
        (match cluster_activities with a :: _ => cn_level a | [] => 0 end)
        (nodup N.eq_dec (flat_map cn_classes cluster_activities)) None)).
(** new_cluster_activities, features/clustering/activities/merging.rs 39-80.  The HashMap gives the clusters
    in any order; the nodes do not depend on it. *)
Definition new_cluster_activities (trace_lengths : list nat) (clusters : dict N (list cnode)) : result (dict N cnode) :=
  loopM (fun d ca => if length (snd ca) <? 2 then Ok d
                     else bind (cluster_node trace_lengths (fst ca) (snd ca)) (fun n => Ok (dset N.eq_dec d (fst ca) n)))
    clusters [].
(** The new node of one instance, features/clustering/activities/merging.rs 82-100. *)
Definition replace_node (names : dict pystr N) (nodes : dict N cnode) (x : cinst) : cinst :=
  match dget str_eq_dec names (cn_name (ci_node x)) with
  | None => x
  | Some cluster_label =>
      match dget N.eq_dec nodes cluster_label with
      | Some node => mkCInst node (ci_start x) (ci_length x)
      | None => x
      end
  end.
(** The loop that joins neighbours, features/clustering/activities/merging.rs 110-134: [prev] is the
    instance at index - 1, [rest] those from index on. *)
Fixpoint join_loop (prev : cinst) (last_seen_activity : pystr) (rest : list cinst) : list cinst :=
  match rest with
  | [] => [prev]
  | x :: r =>
      let activity_name := cn_name (ci_node x) in
      if str_eqb last_seen_activity activity_name then
        if ci_start prev + ci_length prev =? ci_start x
        then join_loop (mkCInst (ci_node prev) (ci_start prev) (ci_length prev + ci_length x)) activity_name r
        else prev :: join_loop x activity_name r
      else prev :: join_loop x activity_name r
  end.
(** features/clustering/activities/merging.rs 102-135 for one trace. *)
Definition join_neighbours (trace_activities : list cinst) : list cinst :=
  match trace_activities with
  | x :: y :: r => join_loop x (cn_name (ci_node x)) (y :: r)
  | _ => trace_activities
  end.
(** merge_activities, features/clustering/activities/merging.rs 18-136: the instances afterwards. *)
Definition merge_activities (trace_lengths : list nat) (traces_activities : list (list cinst))
  (processed : list cnode) (labels : list (option N)) : result (list (list cinst)) :=
  let pairs := labelled processed labels in
  bind (new_cluster_activities trace_lengths (clusters_to_activities pairs)) (fun nodes =>
  Ok (map (fun t => join_neighbours (map (replace_node (names_to_clusters pairs) nodes) t)) traces_activities)).

(** The instances and the labels of the dataset after the executors of the two methods, given what the
    clustering found: features/clustering/activities/k_means.rs 27-71 (and 112-126 of the grid search). *)
Definition clusterize_k_means (trace_lengths : list nat) (traces_activities : list (list cinst)) (processed : list cnode) (targets : list N)
  : result (list (list cinst) * list N) :=
  bind (merge_activities trace_lengths traces_activities processed (map Some targets)) (fun out => Ok (out, targets)).
(** features/clustering/activities/dbscan.rs 16-43. *)
Definition clusterize_dbscan (trace_lengths : list nat) (traces_activities : list (list cinst)) (processed : list cnode) (clusters : list (option N))
  : result (list (list cinst) * list N) :=
  bind (merge_activities trace_lengths traces_activities processed clusters) (fun out => Ok (out, map dbscan_label clusters)).

(** * The picture of a clustering *)

(** One call of ax.scatter: the points, the colour (None: the default one), the text in the legend.
    legacy/analysis/event_log_analysis.py 457, 466. *)
Record series {C : Type} := mkSeries { se_points : list (list C); se_color : option pystr; se_label : option pystr }.
Arguments series C : clear implicits.
Arguments mkSeries {C} se_points se_color se_label.

(** df[name].to_numpy() for a column of labels, legacy/analysis/event_log_analysis.py 459.  Simplified: the name occurs once
    (otherwise df[name] is a DataFrame) and the cells are labels. *)
Definition label_column (df : frame) (name : pystr) : result (list Z) :=
  mapM (fun row =>
    match find (fun nc => str_eqb (fst nc) name) (combine (fr_columns df) row) with
    | Some (_, CellInt z) => Ok z
    | Some (_, CellFloat _) => Err TypeError
    | None => Err KeyError
    end) (fr_rows df).
(** get_values_to_visualize, legacy/analysis/event_log_analysis.py 418-422. *)
Definition get_values_to_visualize (df : frame) (label : option pystr) : list (list cell) :=
  match label with
  | None => fr_rows df
  | Some name => map (fun row => map snd (filter (fun nc => negb (str_eqb (fst nc) name)) (combine (fr_columns df) row))) (fr_rows df)
  end.
(** Inserting into the sorted labels of np.unique, legacy/analysis/event_log_analysis.py 461. *)
Fixpoint insert_Z (x : Z) (l : list Z) : list Z :=
  match l with
  | [] => [x]
  | y :: r => if (x <? y)%Z then x :: l else if (x =? y)%Z then l else y :: insert_Z x r
  end.
(** np.unique, legacy/analysis/event_log_analysis.py 461. *)
Definition np_unique (l : list Z) : list Z := fold_right insert_Z [] l.
(** Color.to_hex, legacy/analysis/event_log_analysis.py 27-28. *)
Definition hex_of (c : color) : pystr := to_hex (Z.to_N (co_red c)) (Z.to_N (co_green c)) (Z.to_N (co_blue c)).

Section Plot.
  (** A coordinate, and the 0 that is put for the missing second one. *)
  Context {C : Type}.
  Variable zero : C.
  (** fit_transform of the chosen method, one row of coordinates for each row. *)
  Variable reduce : list (list cell) -> result (list (list C)).

  (** The coordinates that are drawn of one row: legacy/analysis/event_log_analysis.py 435-437, 453-454, 507-508.  IndexError when the
      reduction gave fewer.  (In the code the matrix is kept by columns.) *)
  Definition components (n : nat) (row : list C) : result (list C) :=
    bind (mapM (fun i => match nth_error row i with Some c => Ok c | None => Err IndexError end) (seq 0 n)) (fun cs =>
    Ok (if length cs =? 1 then cs ++ [zero] else cs)).
  (** draw_scatter_plot_for_dataset_visualization, legacy/analysis/event_log_analysis.py 445-471. *)
  Definition draw_scatter (df : frame) (points : list (list C)) (label : option pystr) (colors : dict Z color) : result (list (series C)) :=
    match label with
    | None => Ok [mkSeries points None None]
    | Some name =>
        bind (label_column df name) (fun y =>
        Ok (map (fun l =>
              mkSeries (map snd (filter (fun yp => (fst yp =? l)%Z) (combine y points)))
                (Some (match dget Z.eq_dec colors l with Some c => hex_of c | None => str "#FFFFFF" end))
                (Some (str "CLUSTER_" ++ show_int l)))
            (np_unique y)))
    end.
  (** visualize_dataset_pca and visualize_dataset_internal, legacy/analysis/event_log_analysis.py 402-442, 496-513. *)
  Definition visualize (df : frame) (n_components : nat) (colors : dict Z color) (label : option pystr) : result (list (series C)) :=
    bind (reduce (get_values_to_visualize df label)) (fun result =>
    bind (mapM (components n_components) result) (fun points => draw_scatter df points label colors)).
End Plot.
