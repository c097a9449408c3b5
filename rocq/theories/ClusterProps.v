(** C57: clusters of traces and activities. *)
From Coq Require Import QArith Permutation Sorted.
From Verif Require Import Py XesModel WireModel BackendModel DecodeModel ResultSpec ClusterModel ClusterSpec ClusterProofs.
Close Scope Q_scope.

(** Rows get the same colour exactly when they have the same label, a label keeps the colour its name has
    already, and no other name has it. *)
Theorem C57_colours : forall rng fuel labels h cs h',
  sound_holder h -> create_colors_vector rng fuel labels h = Ok (cs, h') ->
  length cs = length labels /\ sound_holder h' /\
  (forall i j a b c d, nth_error labels i = Some a -> nth_error labels j = Some b ->
     nth_error cs i = Some c -> nth_error cs j = Some d -> (c = d <-> a = b)) /\
  (forall i a c, nth_error labels i = Some a -> nth_error cs i = Some c ->
     forall name, dget str_eq_dec (ho_names h) name = Some c <->
       (name = create_cluster_name a /\ dget str_eq_dec (ho_names h) name <> None)).
Proof. exact colors_proof. Qed.
Print Assumptions C57_colours.

Definition rng_ (n : nat) : rcolor := (Z.of_nat (n / 2), 0, 7)%Z.
Example C57_colours_case : create_colors_vector rng_ 5 [3; 1; 3; 0]%N (mkHolder [(str "CLUSTER_1", (0, 0, 7)%Z)] [(0, 0, 7)%Z] 0) =
  Ok ([(1, 0, 7); (0, 0, 7); (1, 0, 7); (2, 0, 7)]%Z,
      mkHolder [(str "CLUSTER_1", (0, 0, 7)%Z); (str "CLUSTER_3", (1, 0, 7)%Z); (str "CLUSTER_0", (2, 0, 7)%Z)]
        [(2, 0, 7); (1, 0, 7); (0, 0, 7)]%Z 5).
Proof. vm_compute. reflexivity. Qed.

(** The logs of the clusters of traces: one for each cluster and one for what was left out, each with its
    traces in order; together they hold every trace once. *)
Theorem C57_trace_logs : forall T (order : list (list T) -> list (list T)) traces found,
  (forall l, Permutation (order l) l) -> length traces = length found ->
  exists ks, NoDup ks /\ (forall k, In k ks <-> In k found) /\
    Permutation (cluster_logs order traces (map dbscan_label found)) (map (found_in traces found) ks) /\
    Permutation (concat (cluster_logs order traces (map dbscan_label found))) traces.
Proof. exact @found_logs_proof. Qed.
Print Assumptions C57_trace_logs.
Example C57_trace_logs_case :
  cluster_logs (fun l => rev l) [10; 11; 12; 13; 14] (map dbscan_label [Some 0; None; Some 2; None; Some 0]%N) = [[12]; [11; 13]; [10; 14]].
Proof. vm_compute. reflexivity. Qed.

(** The grid search takes the smallest number of clusters with the highest score, if a score above -1
    is there, and fails otherwise. *)
Theorem C57_grid_search : forall score objects,
  (forall k, best_clusters_count (fun k => Some (score k)) objects = Ok k <-> best_count score objects k) /\
  ((exists j, 2 <= j < objects /\ ((-1)%Q < score j)%Q) -> exists k, best_clusters_count (fun k => Some (score k)) objects = Ok k).
Proof. exact grid_proof. Qed.
Print Assumptions C57_grid_search.
Example C57_grid_case : best_clusters_count (fun k => Some (match k with 3 => (1 # 2)%Q | 5 => (1 # 2)%Q | _ => (1 # 4)%Q end)) 7 = Ok 3 /\
  best_clusters_count (fun _ => Some 1%Q) 2 = Err UserError.
Proof. vm_compute. auto. Qed.

(** After merging, a position lies in an instance called [m] exactly when it lay in an instance of an
    activity that is called [m] now; neighbours of one name are joined; the order is kept. *)
Theorem C57_positions : forall lens instances processed labels out,
  NoDup (map cn_name processed) -> length processed = length labels ->
  merge_activities lens instances processed labels = Ok out ->
  Forall2 (fun before after =>
    (forall p m, covered after p m <-> exists n, covered before p n /\ renamed processed labels n m) /\
    joined after /\
    (forall from, in_order from before -> in_order from after)) instances out.
Proof. exact merge_proof. Qed.
Print Assumptions C57_positions.

(** An instance of the merged log begins where an instance began; its node is that one's, or the node of
    the cluster: called after it, of the level of the first of its activities, with their classes, without
    a repeat set. *)
Theorem C57_nodes : forall lens instances processed labels out,
  NoDup (map cn_name processed) -> length processed = length labels ->
  merge_activities lens instances processed labels = Ok out ->
  Forall2 (fun before after => forall y, In y after -> exists x, In x before /\ ci_start y = ci_start x /\
    ((ci_node y = ci_node x /\ (forall k, in_cluster processed labels (cn_name (ci_node x)) k -> ~ crowded labels k)) \/
     exists k, in_cluster processed labels (cn_name (ci_node x)) k /\ crowded labels k /\
       cn_name (ci_node y) = create_cluster_name k /\ cn_repeat (ci_node y) = None /\
       (forall c, In c (cn_classes (ci_node y)) <->
          exists i a, nth_error processed i = Some a /\ nth_error labels i = Some (Some k) /\ In c (cn_classes a)) /\
       (forall i a, nth_error processed i = Some a -> nth_error labels i = Some (Some k) ->
          (forall j, j < i -> nth_error labels j <> Some (Some k)) -> cn_level (ci_node y) = cn_level a))) instances out.
Proof. exact merge_nodes_proof. Qed.
Print Assumptions C57_nodes.

(** Merging does not fail when the events of the repeat sets are in the log. *)
Theorem C57_merge_total : forall lens instances processed labels,
  (forall a, In a processed -> repeat_in_log lens a) -> exists out, merge_activities lens instances processed labels = Ok out.
Proof. exact merge_total_proof. Qed.
Print Assumptions C57_merge_total.

Definition act_ (n : string) (c : list N) : cnode := mkCNode (str n) 1 c (Some (0, 0, 2)).
Example C57_merge_case :
  let a := act_ "a" [1; 2]%N in let b := act_ "b" [2; 3]%N in let c := act_ "c" [4]%N in
  let cluster := mkCNode (str "CLUSTER_5") 1 [1; 2; 3]%N None in
  NoDup (map cn_name [a; b; c]) /\ (forall x, In x [a; b; c] -> repeat_in_log [9; 4] x) /\
  merge_activities [9; 4] [[mkCInst a 0 2; mkCInst b 2 2; mkCInst c 4 1; mkCInst b 5 1; mkCInst a 7 2]; [mkCInst c 0 1]] [a; b; c]
    [Some 5; Some 5; Some 0]%N =
  Ok [[mkCInst cluster 0 4; mkCInst c 4 1; mkCInst cluster 5 1; mkCInst cluster 7 2]; [mkCInst c 0 1]].
Proof.
  cbv zeta. split; [repeat constructor; cbn; intuition discriminate|]. split; [|vm_compute; reflexivity].
  intros x [<-|[<-|[<-|[]]]]; cbn; exists 9; split; auto; lia.
Qed.

(** With k-means, the activity of a row of the dataset is found in the log under the name in the legend. *)
Theorem C57_k_means_legend : forall lens instances processed targets out labels,
  NoDup (map cn_name processed) -> length processed = length targets ->
  clusterize_k_means lens instances processed targets = Ok (out, labels) ->
  length labels = length processed /\
  forall i a l, nth_error processed i = Some a -> nth_error labels i = Some l ->
    (exists j, j <> i /\ nth_error labels j = Some l) ->
    Forall2 (fun before after => forall p, covered before p (cn_name a) -> covered after p (create_cluster_name l)) instances out.
Proof.
  intros lens instances processed targets out labels Hn Hl H. unfold clusterize_k_means in H.
  destruct (merge_activities lens instances processed (map Some targets)) as [o|] eqn:E; [|discriminate]. cbn [bind] in H. injection H as -> ->.
  split; [congruence|]. intros i a l Ha Hi (j & Hij & Hj).
  assert (F := C57_positions _ _ _ _ _ Hn ltac:(rewrite map_length; exact Hl) E).
  assert (Hs : forall n x, nth_error labels n = Some x -> nth_error (map Some labels) n = Some (Some x)) by (intros n x Hx; apply map_nth_error; exact Hx).
  assert (R : renamed processed (map Some labels) (cn_name a) (create_cluster_name l)).
  { left. exists l. split; [exists i, a; auto|]. split; [|reflexivity]. destruct (Nat.lt_ge_cases i j).
    - exists i, j. auto.
    - exists j, i. split; [lia|]. auto. }
  clear -F R. induction F as [|b x bs xs (H & _) F IH]; constructor; [|exact IH]. intros p Hp. apply H. exists (cn_name a). auto.
Qed.
Print Assumptions C57_k_means_legend.

(** With DBSCAN it is not: the legend counts from 1, the log from 0. *)
Theorem C57_dbscan_legend_refuted : exists lens instances processed clusters out labels,
  NoDup (map cn_name processed) /\ length processed = length clusters /\
  clusterize_dbscan lens instances processed clusters = Ok (out, labels) /\
  exists i a l, nth_error processed i = Some a /\ nth_error labels i = Some l /\
    (exists j, j <> i /\ nth_error labels j = Some l) /\ l <> 0%N /\
    exists before after p, In (before, after) (combine instances out) /\ covered before p (cn_name a) /\
      ~ covered after p (create_cluster_name l).
Proof.
  exists [4], [[mkCInst (act_ "a" [1]%N) 0 2; mkCInst (act_ "b" [2]%N) 2 2]], [act_ "a" [1]%N; act_ "b" [2]%N], [Some 0; Some 0]%N.
  eexists. eexists. split; [repeat constructor; cbn; intuition discriminate|]. split; [reflexivity|]. split; [vm_compute; reflexivity|].
  exists 0, (act_ "a" [1]%N), 1%N. split; [reflexivity|]. split; [reflexivity|]. split; [exists 1; split; [discriminate|reflexivity]|]. split; [discriminate|].
  eexists. eexists. exists 0. split; [left; reflexivity|]. split.
  - eexists. split; [left; reflexivity|]. split; [reflexivity|]. cbn. lia.
  - intros (x & [<-|[]] & E & _). vm_compute in E. discriminate.
Qed.
Print Assumptions C57_dbscan_legend_refuted.

(** Instances of activities that were left out do not stay as they are. *)
Theorem C57_left_out_untouched_refuted : exists lens instances processed labels out,
  NoDup (map cn_name processed) /\ length processed = length labels /\ (forall l, In l labels -> l = None) /\
  merge_activities lens instances processed labels = Ok out /\ out <> instances.
Proof.
  exists [4], [[mkCInst (act_ "a" [1]%N) 0 2; mkCInst (act_ "a" [1]%N) 2 2]], [act_ "a" [1]%N], [None]. eexists.
  split; [repeat constructor; auto|]. split; [reflexivity|]. split; [intros l [<-|[]]; reflexivity|]. split; [vm_compute; reflexivity|discriminate].
Qed.
Print Assumptions C57_left_out_untouched_refuted.

(** A second clustering reuses the names of the first: an instance of an old cluster that is left out is
    swallowed by a new cluster of that name. *)
Theorem C57_second_clustering_refuted : exists lens instances processed labels out,
  NoDup (map cn_name processed) /\ length processed = length labels /\
  merge_activities lens instances processed labels = Ok out /\
  exists before after x, In (before, after) (combine instances out) /\ In x before /\
    (forall k, ~ in_cluster processed labels (cn_name (ci_node x)) k) /\
    forall y, In y after -> ci_start y <= ci_start x < ci_start y + ci_length y -> forall c, In c (cn_classes (ci_node x)) -> ~ In c (cn_classes (ci_node y)).
Proof.
  exists [6], [[mkCInst (act_ "a" [1]%N) 0 2; mkCInst (act_ "b" [2]%N) 2 2; mkCInst (mkCNode (str "CLUSTER_0") 0 [7; 8]%N None) 4 2]],
    [act_ "a" [1]%N; act_ "b" [2]%N; mkCNode (str "CLUSTER_0") 0 [7; 8]%N None], [Some 0; Some 0; None]%N.
  eexists. split; [repeat constructor; cbn; intuition discriminate|]. split; [reflexivity|]. split; [vm_compute; reflexivity|].
  eexists. eexists. exists (mkCInst (mkCNode (str "CLUSTER_0") 0 [7; 8]%N None) 4 2). split; [left; reflexivity|].
  split; [right; right; left; reflexivity|]. split.
  - intros k (i & a & H1 & H2 & H3). destruct i as [|[|[|[|i]]]]; cbn in H1, H3; try discriminate; injection H1 as H1; subst a; vm_compute in H2; discriminate.
  - intros y [<-|[]] _ c Hc Hd. cbn in Hc, Hd. intuition subst; discriminate.
Qed.
Print Assumptions C57_second_clustering_refuted.

(** From the colours of the backend to the picture of the client: one series of points for each label,
    ascending, holding the points of its rows, in its colour, which no other series has, under its name. *)
Theorem C57_picture : forall C (zero : C) reduce rng fuel labels h cs h' d o key n rows,
  key = str "labeled_traces_activities_dataset" \/ key = str "labeled_log_traces_dataset" ->
  sound_holder h -> byte_holder h -> (forall i, byte_color (rng i)) ->
  create_colors_vector rng fuel labels h = Ok (cs, h') ->
  regular d -> length labels = length (rd_values d) -> (forall l, In l labels -> label32 (Z.of_N l)) -> ~ In (str "cluster_labels") (rd_columns d) ->
  vo_show o = true ->
  reduce (map (map (fun x => CellFloat (f32 x))) (rd_values d)) = Ok rows -> length rows = length labels -> (forall row, In row rows -> n <= length row) ->
  exists g df colors pic ks,
    value_grpc key (VLabeled d (map Z.of_N labels) cs) = Some g /\
    show_labeled o key [(key, g)] = Ok (ShDataset df colors (Some (str "cluster_labels"))) /\
    visualize zero reduce df n colors (Some (str "cluster_labels")) = Ok pic /\
    StronglySorted N.lt ks /\ (forall k, In k ks <-> In k labels) /\
    Forall2 (shows zero n rows labels cs) ks pic /\ NoDup (map se_color pic).
Proof. exact @picture_proof. Qed.
Print Assumptions C57_picture.

Definition data_ : rdataset :=
  mkRDataset [[SpecFloat.S754_zero false]; [SpecFloat.S754_infinity false]; [SpecFloat.S754_zero true]] [str "x"] [str "t1"; str "t2"; str "t3"].
Definition reduce_ (rows : list (list cell)) : result (list (list nat)) := Ok (map (fun i => [i; i + 1; i + 2]) (seq 0 (length rows))).
Example C57_picture_case :
  let labels := [2; 0; 2]%N in
  exists cs h' df colors,
  create_colors_vector rng_ 5 labels (empty_holder 0) = Ok (cs, h') /\ regular data_ /\
  reduce_ (map (map (fun x => CellFloat (f32 x))) (rd_values data_)) = Ok [[0; 1; 2]; [1; 2; 3]; [2; 3; 4]] /\
  (exists g, value_grpc (str "labeled_log_traces_dataset") (VLabeled data_ (map Z.of_N labels) cs) = Some g /\
     show_labeled (mkOpts true None true) (str "labeled_log_traces_dataset") [(str "labeled_log_traces_dataset", g)] = Ok (ShDataset df colors (Some (str "cluster_labels")))) /\
  visualize 0 reduce_ df 2 colors (Some (str "cluster_labels")) =
  Ok [mkSeries [[1; 2]] (Some (str "#010007")) (Some (str "CLUSTER_0")); mkSeries [[0; 1]; [2; 3]] (Some (str "#000007")) (Some (str "CLUSTER_2"))].
Proof.
  cbv zeta. do 4 eexists. split; [vm_compute; reflexivity|]. split; [split; [reflexivity|intros row [<-|[<-|[<-|[]]]]; reflexivity]|]. split; [reflexivity|].
  split; [eexists; split; vm_compute; reflexivity|]. vm_compute. reflexivity.
Qed.
