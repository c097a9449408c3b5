(** The datasets that are clustered and drawn.

    Backend (src/rust/ficus_backend/src): features/clustering/traces/dbscan.rs 73-261,
    features/clustering/activities/activities_common.rs 33-257, features/clustering/common.rs 24-64,
    event_log/core/event/event_hasher.rs 85-97, features/analysis/patterns/activity_instances.rs 682-717.

    Simplified: f64 are rationals (counts are exact below 2^53; quotients are not rounded); an event is its
    name and its underlying events; regular expressions are given by where they match. *)
From Coq Require Import QArith Qminmax.
From Verif Require Import Py XesModel HashModel ClusterModel DrawModel DecodeModel.
Close Scope Q_scope.

(** An event with the underlying events in its user data, features/analysis/patterns/activity_instances.rs 689-702. *)
Inductive bevent := BEvent (name : pystr) (underlying : option (list bevent)).
(** event.name(), features/clustering/traces/dbscan.rs 149. *)
Definition be_name (e : bevent) : pystr := match e with BEvent n _ => n end.

(** create_vector_of_underlying_events, features/analysis/patterns/activity_instances.rs 682-702. *)
Fixpoint deepest (e : bevent) : list bevent :=
  match e with
  | BEvent _ (Some l) => flat_map deepest l
  | BEvent _ None => [e]
  end.
(** create_vector_of_immediate_underlying_events, features/analysis/patterns/activity_instances.rs 704-717. *)
Definition immediate (e : bevent) : list bevent := match e with BEvent _ (Some l) => l | BEvent _ None => [e] end.

(** TracesRepresentationSource, features/clustering/traces/traces_params.rs 17-22. *)
Inductive traces_source := SrcEvents | SrcUnderlying | SrcDeepest.
(** create_trace_representation, features/clustering/traces/dbscan.rs 97-124. *)
Definition trace_representation (s : traces_source) (trace : list bevent) : list bevent :=
  match s with
  | SrcEvents => trace
  | SrcUnderlying => flat_map immediate trace
  | SrcDeepest => flat_map deepest trace
  end.

(** f64::MAX, features/clustering/common.rs 51 (and f64::MIN is its opposite, 50). *)
Definition f64_max : Q := inject_Z ((2 ^ 53 - 1) * 2 ^ 971).
(** vector[index] = value, features/clustering/common.rs 61. *)
Fixpoint set_nth {A} (l : list A) (n : nat) (x : A) : list A :=
  match l, n with
  | [], _ => []
  | _ :: r, O => x :: r
  | y :: r, S n' => y :: set_nth r n' x
  end.
(** vector[index], features/clustering/common.rs 55-56: panics out of range. *)
Definition at_index {A} (l : list A) (n : nat) : result A := match nth_error l n with Some x => Ok x | None => Err IndexError end.
(** Largest and smallest value of a column, features/clustering/common.rs 50-57. *)
Definition column_bounds (vector : list Q) (objects_count features_count i : nat) : result (Q * Q) :=
  loopM (fun mm j => bind (at_index vector (i + j * features_count)) (fun x => Ok (Qmax (fst mm) x, Qmin (snd mm) x)))
    (seq 0 objects_count) (Qopp f64_max, f64_max).
(** Scaling one column, features/clustering/common.rs 49-63. *)
Definition scale_column (objects_count features_count : nat) (vector : list Q) (i : nat) : result (list Q) :=
  bind (column_bounds vector objects_count features_count i) (fun '(max, min) =>
  loopM (fun v j =>
      let index := i + j * features_count in
      bind (at_index v index) (fun x =>
      Ok (set_nth v index (if Qeq_bool max min then 1 else (x - min) / (max - min))%Q)))
    (seq 0 objects_count) vector).
(** scale_raw_dataset_min_max, features/clustering/common.rs 48-64. *)
Definition scale_raw (vector : list Q) (objects_count features_count : nat) : result (list Q) :=
  loopM (scale_column objects_count features_count) (seq 0 features_count) vector.
(** Array2::from_shape_vec and reading it back row by row: features/clustering/traces/dbscan.rs 187-190,
    features/clustering/common.rs 24-39. *)
Definition from_shape {A} (objects features : nat) (v : list A) : result (list (list A)) :=
  if length v =? objects * features
  then Ok (map (fun j => firstn features (skipn (j * features) v)) (seq 0 objects)) else Err UserError.

(** A dataset: matrix, names of rows, names of columns.  utils/dataset/dataset.rs 3-7. *)
Record dataset (C : Type) := mkData { da_values : list (list C); da_rows : list pystr; da_columns : list pystr }.
Arguments mkData {C} da_values da_rows da_columns.
Arguments da_values {C}. Arguments da_rows {C}. Arguments da_columns {C}.

(** format!("Trace_{}", x) and format!("Symbol_{}", x): features/clustering/traces/dbscan.rs 196, 258-259. *)
Definition numbered (prefix : string) (n : nat) : list pystr := map (fun i => str prefix ++ show_int (Z.of_nat i)) (seq 0 n).

Section Extract.
  (** regex.find: start and end of the first match; None without a class extractor. *)
  Variable find_match : option (pystr -> option (nat * nat)).
  (** The order in which a HashSet or a HashMap gives its keys. *)
  Variable order : list pystr -> list pystr.

  (** The name after the class extractor: event_log/core/event/event_hasher.rs 85-96, features/clustering/traces/dbscan.rs 147-150. *)
  Definition class_name (name : pystr) : pystr :=
    match find_match with
    | None => name
    | Some f => match f name with Some (O, e) => firstn e name | _ => name end
    end.
  (** The class of an event, features/clustering/traces/dbscan.rs 146-150, 167-171. *)
  Definition class_of (e : bevent) : pystr := class_name (be_name e).

  (** all_event_classes collected from a set and sorted, features/clustering/traces/dbscan.rs 142-157. *)
  Definition sorted_classes (l : list pystr) : list pystr := sort_strs (order (nodup str_eq_dec l)).
  (** *events_counts.entry(…).or_default() += 1, features/clustering/traces/dbscan.rs 161-174. *)
  Definition count_classes (l : list pystr) : dict pystr nat :=
    fold_left (fun d c => dset str_eq_dec d c (S (match dget str_eq_dec d c with Some n => n | None => 0 end))) l [].
  (** The counts of one row, features/clustering/traces/dbscan.rs 176-178, activities_common.rs 172-180. *)
  Definition counts_row (classes : list pystr) (counts : dict pystr nat) : list Q :=
    map (fun c => inject_Z (Z.of_nat (match dget str_eq_dec counts c with Some n => n | None => 0 end))) classes.

  (** create_traces_dataset_default_internal, features/clustering/traces/dbscan.rs 126-199. *)
  Definition traces_dataset_default (log : list (list bevent)) (src : traces_source) : result (dataset Q) :=
    let processed := map (fun t => map class_of (trace_representation src t)) log in
    let classes := sorted_classes (concat processed) in
    let raw := flat_map (fun t => counts_row classes (count_classes t)) processed in
    bind (scale_raw raw (length processed) (length classes)) (fun v =>
    bind (from_shape (length processed) (length classes) v) (fun m =>
    Ok (mkData m (numbered "Trace_" (length processed)) classes))).

  (** all_event_classes with a number for each class, features/clustering/traces/dbscan.rs 217-233. *)
  Definition class_codes (l : list pystr) : dict pystr N :=
    fold_left (fun d c => if dmem str_eq_dec d c then d else dset str_eq_dec d c (N.of_nat (S (length d)))) l [].
  (** create_traces_dataset_levenshtein_internal, features/clustering/traces/dbscan.rs 202-261. *)
  Definition traces_dataset_levenshtein (log : list (list bevent)) (src : traces_source) : result (dataset N) :=
    let processed := map (fun t => map class_of (trace_representation src t)) log in
    let max_length := fold_left (fun m t => Nat.max m (length t + 1)) processed 0 in
    let codes := class_codes (concat processed) in
    bind (mapM (fun t =>
           bind (mapM (fun c => match dget str_eq_dec codes c with Some n => Ok n | None => Err AssertionErr end) t) (fun row =>
           Ok (row ++ repeat 0%N (max_length - length t)))) processed) (fun raw =>
    bind (from_shape (length processed) max_length (concat raw)) (fun m =>
    Ok (mkData m (numbered "Trace_" (length processed)) (numbered "Symbol_" max_length)))).

  (** ActivityRepresentationSource, features/clustering/activities/activities_params.rs 9-13. *)
  Inductive activity_source := ActClasses | ActSubTraces | ActUnderlying.
  (** events[start..end] of the trace of a repeat set: activities_common.rs 131-137, 225-231. *)
  Definition repeat_events (log : list (list bevent)) (place : nat * nat * nat) : result (list bevent) :=
    let '(t, start, len) := place in
    match nth_error log t with
    | None => Err AssertionErr
    | Some trace => if start + len <=? length trace then Ok (firstn len (skipn start trace)) else Err IndexError
    end.
  (** What is counted for an activity (before scaling): activities_common.rs 56-67, 84, 88-105, 128-138, 222-252.
      None is the error NoRepeatSet, which only the first source gives. *)
  Definition activity_counts (src : activity_source) (log : list (list bevent)) (node : cnode) : result (dict pystr nat) :=
    match cn_repeat node with
    | Some place =>
        bind (repeat_events log place) (fun events =>
        Ok match src with
           | ActClasses => count_classes (order (nodup str_eq_dec (map class_of events)))
           | ActSubTraces => count_classes (map class_of events)
           | ActUnderlying => count_classes (map class_of (flat_map deepest events))
           end)
    | None => match src with ActClasses => Err UserError | _ => Ok [] end
    end.
  (** The activities of a level, each at its first instance: activities_common.rs 114-138, 209-254. *)
  Definition process_activities (src : activity_source) (log : list (list bevent)) (level : N) (traces_activities : list (list cinst))
    : result (dict pystr (cnode * dict pystr nat)) :=
    loopM (fun processed x =>
        if dmem str_eq_dec processed (cn_name (ci_node x)) then Ok processed
        else if negb (cn_level (ci_node x) =? level)%N then Ok processed
        else bind (activity_counts src log (ci_node x)) (fun counts =>
             Ok (dset str_eq_dec processed (cn_name (ci_node x)) (ci_node x, counts))))
      (concat traces_activities) [].
  (** create_dataset, activities_common.rs 33-41, 147-199: the nodes in the order of the rows, and the dataset
      (whose rows are named after them, features/clustering/activities/k_means.rs 60-64). *)
  Definition activities_dataset (src : activity_source) (log : list (list bevent)) (level : N) (traces_activities : list (list cinst))
    : result (list cnode * dataset Q) :=
    bind (process_activities src log level traces_activities) (fun processed =>
    let classes := sorted_classes (flat_map (fun p => dkeys (snd (snd p))) processed) in
    let names := sort_strs (order (dkeys processed)) in
    bind (mapM (fun n => dgetitem str_eq_dec processed n) names) (fun rows =>
    let raw := flat_map (fun r => counts_row classes (snd r)) rows in
    bind (scale_raw raw (length rows) (length classes)) (fun v =>
    bind (from_shape (length rows) (length classes) v) (fun m =>
    Ok (map fst rows, mkData m (map (fun r => cn_name (fst r)) rows) classes))))).
End Extract.
