(** The fuzzy miner of the backend: src/rust/ficus_backend/src/features/discovery/fuzzy/{fuzzy_miner,fuzzy_metrics_provider}.rs,
    utils/graph/{graph,graph_clusters}.rs with f64 on the edges, utils/sets/one_set.rs and pipelines/discovery_parts.rs 120-146.
    f64 is taken as exact rational numbers; thresholds which are no numbers are left out.  Times are whole milliseconds.
    [ords 0] is the order in which hash tables are walked over (RInfoModel), [ords (3 * i + 1)] that for the node number [i]
    for which a cluster is looked for, [ords (3 * i + 2)] that of the merging round number [i] and [ords (3 * i + 3)] that of
    the cluster number [i] which becomes a node.  The cache of fuzzy_metrics_provider.rs 44-46 and 79-81 is left out: it gives
    what was computed before for the same log and names. *)
From Coq Require Import QArith.
From Verif Require Import Py InfoModel ReplayModel RInfoModel AlphaModel HeurModel.
Open Scope nat_scope.

(** Traces of events, which are names and times; event_log/core/event/event.rs. *)
Notation flog := (list (list (pystr * Z))).
(** The names of the events, as EventLogInfo sees the log, features/analysis/event_log_info.rs 98-136. *)
Definition names_of (log : flog) : names_log := map (map fst) log.
(** The thresholds, fuzzy_miner.rs 13-22. *)
Record fparams := mkFParams { fp_unary : Q; fp_binary : Q; fp_preserve : Q; fp_ratio : Q; fp_rate : Q; fp_edge : Q; fp_node : Q }.

(** * Graphs with numbers on the edges *)
(** FuzzyGraph, fuzzy_miner.rs 11 and utils/graph/graph.rs 9-16. *)
Record fgraph := mkFGraph { fg_nodes : dict N (option pystr); fg_connections : dict N (dict N (option Q)) }.
(** Graph::empty, utils/graph/graph.rs 23-28. *)
Definition fg_empty : fgraph := mkFGraph [] [].
(** add_node, utils/graph/graph.rs 49-55; [next] is NEXT_ID, graph.rs 6. *)
Definition fg_add_node (g : fgraph) (next : N) (data : option pystr) : fgraph := mkFGraph (dset N.eq_dec (fg_nodes g) next data) (fg_connections g).
(** are_nodes_connected, utils/graph/graph.rs 74-80. *)
Definition fg_connected (g : fgraph) (a b : N) : bool :=
  match dget N.eq_dec (fg_connections g) a with Some c => dmem N.eq_dec c b | None => false end.
(** connect_nodes, utils/graph/graph.rs 57-72. *)
Definition fg_connect (g : fgraph) (a b : N) (data : option Q) : fgraph :=
  if fg_connected g a b then g
  else if dmem N.eq_dec (fg_nodes g) a && dmem N.eq_dec (fg_nodes g) b then
    match dget N.eq_dec (fg_connections g) a with
    | Some c => mkFGraph (fg_nodes g) (dset N.eq_dec (fg_connections g) a (dset N.eq_dec c b data))
    | None => mkFGraph (fg_nodes g) (dset N.eq_dec (fg_connections g) a [(b, data)])
    end
  else g.
(** disconnect_nodes, utils/graph/graph.rs 82-88; the answer is not used. *)
Definition fg_disconnect (g : fgraph) (a b : N) : fgraph :=
  match dget N.eq_dec (fg_connections g) a with
  | Some c => mkFGraph (fg_nodes g) (dset N.eq_dec (fg_connections g) a (ddel N.eq_dec c b))
  | None => g
  end.
(** outgoing_nodes, utils/graph/graph.rs 105-110, in the order of the lists. *)
Definition fg_outgoing (g : fgraph) (a : N) : list N :=
  match dget N.eq_dec (fg_connections g) a with None => [] | Some c => dkeys c end.
(** incoming_edges, utils/graph/graph.rs 112-121, in the order of the lists. *)
Definition fg_incoming (g : fgraph) (a : N) : list N := map fst (filter (fun kv => dmem N.eq_dec (snd kv) a) (fg_connections g)).
(** all_connected_nodes, utils/graph/graph.rs 90-103, in the order of the lists: the name of the loop hides the argument. *)
Definition fg_all_connected (g : fgraph) (a : N) : list N :=
  fg_outgoing g a ++ map fst (filter (fun kv => dmem N.eq_dec (snd kv) (fst kv)) (fg_connections g)).
(** The ends of all_edges, utils/graph/graph.rs 38-47, in the order of the lists. *)
Definition fg_edges (g : fgraph) : list (N * N) := flat_map (fun kv => map (fun sv => (fst kv, fst sv)) (snd kv)) (fg_connections g).
(** graph.node(..).unwrap().data().unwrap(), fuzzy_miner.rs 128, 131, 182, 321, 322. *)
Definition fg_name (g : fgraph) (id : N) : result pystr :=
  match dget N.eq_dec (fg_nodes g) id with Some (Some n) => Ok n | _ => rpanic end.
(** An element in a set of ids, utils/sets/one_set.rs 52-54: the order of the elements is not kept. *)
Definition id_mem (x : N) (s : list N) : bool := if in_dec N.eq_dec x s then true else false.
Definition id_add (s : list N) (x : N) : list N := if id_mem x s then s else s ++ [x].

(** * Metrics *)
(** The loop over the events of a trace, fuzzy_metrics_provider.rs 53-75: the time of the last event of the first class is
    kept instead of its index. *)
Fixpoint proximity_events (a b : pystr) (t : list (pystr * Z)) (last : option Z) (s : Q * nat) : Q * nat :=
  match t with
  | [] => s
  | (n, time) :: r =>
      if str_eqb n a then proximity_events a b r (Some time) s
      else if str_eqb n b then
        match last with
        | Some first => proximity_events a b r None ((fst s + inject_Z (time - first))%Q, S (snd s))
        | None => proximity_events a b r last s
        end
      else proximity_events a b r last s
  end.
(** proximity_correlation, fuzzy_metrics_provider.rs 43-84. *)
Definition proximity_correlation (log : flog) (a b : pystr) : Q :=
  let s := fold_left (fun s t => proximity_events a b t None s) log (0%Q, 0) in
  if snd s =? 0 then 0%Q else (fst s / qn (snd s))%Q.
(** unary_frequency_significance, fuzzy_metrics_provider.rs 35-37. *)
Definition unary_significance (info : rinfo) (c : pystr) : Q := qn (r_event_count info c).
(** binary_frequency_significance, fuzzy_metrics_provider.rs 39-41. *)
Definition binary_significance (info : rinfo) (a b : pystr) : Q := qn (r_directly_follows_count (ri_dfg info) a b).
(** relative_significance, fuzzy_metrics_provider.rs 86-106, where [names] are those of all nodes; no number (None) if one of
    the sums is 0, as then the count of the pair is 0, too. *)
Definition relative_significance (info : rinfo) (names : list pystr) (a b : pystr) : option Q :=
  let sig := ((1 # 2) * binary_significance info a b)%Q in
  let first_sum := fold_left (fun s n => (s + binary_significance info a n)%Q) names 0%Q in
  let second_sum := fold_left (fun s n => (s + binary_significance info n b)%Q) names 0%Q in
  if Qeq_bool first_sum 0 || Qeq_bool second_sum 0 then None else Some (sig / first_sum + sig / second_sum)%Q.
(** utility_measure, fuzzy_metrics_provider.rs 108-110. *)
Definition utility_measure (info : rinfo) (log : flog) (rate : Q) (a b : pystr) : Q :=
  (rate * binary_significance info a b + (1 - rate) * proximity_correlation log a b)%Q.
(** a < b of f64 where [a] may be no number, fuzzy_miner.rs 86, 90. *)
Definition less (a : option Q) (b : Q) : bool := match a with Some x => Qlt_bool x b | None => false end.

(** * Edges *)
(** are_nodes_bi_connected, fuzzy_miner.rs 356-358. *)
Definition bi_connected (g : fgraph) (a b : N) : bool := fg_connected g a b && fg_connected g b a.
(** What is taken away for two significances, fuzzy_miner.rs 86-100. *)
Definition take_away (p : fparams) (ab ba : option Q) (x y : N) (g : fgraph) : fgraph :=
  if less ab (fp_preserve p) || less ba (fp_preserve p) then
    match ab, ba with
    | Some u, Some v =>
        if Qlt_bool (fp_ratio p) (if Qle_bool v u then u - v else v - u)%Q then
          if Qlt_bool u v then fg_disconnect g x y else fg_disconnect g y x
        else fg_disconnect (fg_disconnect g x y) y x
    | _, _ => fg_disconnect (fg_disconnect g x y) y x
    end
  else g.
(** A set of sources for each target, fuzzy_miner.rs 112-119. *)
Definition sources_of (edges : list (N * N)) : dict N (list N) :=
  fold_left (fun m ft => match dget N.eq_dec m (snd ft) with
                         | Some s => dset N.eq_dec m (snd ft) (id_add s (fst ft))
                         | None => dset N.eq_dec m (snd ft) [fst ft]
                         end) edges [].
(** f64::min and f64::max, fuzzy_miner.rs 135-136. *)
Definition Qmin2 (a b : Q) : Q := if Qle_bool a b then a else b.
Definition Qmax2 (a b : Q) : Q := if Qle_bool b a then a else b.
(** The removal of weak edges into one node, fuzzy_miner.rs 135-148. *)
Definition cut_weak (p : fparams) (node : N) (measures : list (N * Q)) (g : fgraph) : fgraph :=
  match measures with
  | [] => g
  | m :: r =>
      let min := fold_left Qmin2 (map snd r) (snd m) in
      let max := fold_left Qmax2 (map snd r) (snd m) in
      fold_left (fun g m =>
        let normalized := if Qeq_bool max min then 1%Q else ((snd m - min) / (max - min))%Q in
        if Qlt_bool normalized (fp_edge p) then fg_disconnect g (fst m) node else g) measures g
  end.

(** * Clusters *)
(** The sets of nodes by id, the set of each node, and ONE_SET_NEXT_ID; fuzzy_miner.rs 152, 155-156, one_set.rs 14. *)
Record fclusters := mkFClusters { fc_sets : dict N (list N); fc_of : dict N N; fc_next : N }.
(** The loop for the strongest of the connected nodes, fuzzy_miner.rs 177-189. *)
Definition strongest (g : fgraph) (log : flog) (node : N) (name : pystr) (connected : list N) : result (option (Q * N)) :=
  loopM (fun best c =>
    if N.eqb c node then Ok best
    else bind (fg_name g c) (fun n =>
      let corr := proximity_correlation log name n in
      Ok (match best with Some (m, _) => if Qlt_bool m corr then Some (corr, c) else best | None => Some (corr, c) end)))
    connected None.
(** What is done for one node, fuzzy_miner.rs 171-202. *)
Definition initial_cluster (g : fgraph) (info : rinfo) (log : flog) (p : fparams) (ord : nat -> forall A : Type, list A -> list A)
  (cl : fclusters) (node : N * option pystr) : result fclusters :=
  match snd node with
  | None => rpanic
  | Some name =>
      if Qle_bool (fp_node p) (unary_significance info name) then Ok cl
      else
        bind (strongest g log (fst node) name (ord 0 _ (fg_all_connected g (fst node)))) (fun best =>
        match best with
        | None => Ok cl
        | Some (_, m) =>
            match dget N.eq_dec (fc_of cl) m with
            | Some c =>
                match dget N.eq_dec (fc_sets cl) c with
                | Some s => Ok (mkFClusters (dset N.eq_dec (fc_sets cl) c (id_add s (fst node))) (dset N.eq_dec (fc_of cl) (fst node) c) (fc_next cl))
                | None => rpanic
                end
            | None => Ok (mkFClusters (dset N.eq_dec (fc_sets cl) (fc_next cl) [fst node]) (dset N.eq_dec (fc_of cl) (fst node) (fc_next cl)) (N.succ (fc_next cl)))
            end
        end)
  end.
(** clusters_correlation, fuzzy_miner.rs 311-333. *)
Definition clusters_correlation (g : fgraph) (log : flog) (first second : list N) : result Q :=
  bind (loopM (fun s xy => bind (fg_name g (fst xy)) (fun x => bind (fg_name g (snd xy)) (fun y => Ok ((fst s + proximity_correlation log x y)%Q, S (snd s)))))
          (list_prod first second) (0%Q, 0)) (fun s =>
  Ok (if snd s =? 0 then 0%Q else (fst s / qn (snd s))%Q)).
(** find_most_correlated_cluster, fuzzy_miner.rs 335-354: the id and the set. *)
Definition most_correlated (g : fgraph) (log : flog) (cluster : list N) (candidates : list N) (sets : dict N (list N)) : result (option (Q * (N * list N))) :=
  loopM (fun best c =>
    match dget N.eq_dec sets c with
    | None => rpanic
    | Some s => bind (clusters_correlation g log cluster s) (fun corr =>
        Ok (match best with Some (m, _) => if Qlt_bool m corr then Some (corr, (c, s)) else best | None => Some (corr, (c, s)) end))
    end) candidates None.
(** The ids of the sets of the nodes outside of the cluster, fuzzy_miner.rs 274-287. *)
Definition other_clusters (cl : fclusters) (cluster nodes : list N) : list N :=
  fold_left (fun s n => if id_mem n cluster then s else match dget N.eq_dec (fc_of cl) n with Some c => id_add s c | None => s end) nodes [].
(** try_merge_clusters, fuzzy_miner.rs 265-309; nothing (None) if it gives false. *)
Definition try_merge_clusters (g : fgraph) (log : flog) (ord : forall A : Type, list A -> list A) (cl : fclusters) (id : N) (cluster nodes : list N) : result (option fclusters) :=
  if forallb (fun n => id_mem n cluster || dmem N.eq_dec (fc_of cl) n) nodes then
    bind (most_correlated g log cluster (ord _ (other_clusters cl cluster nodes)) (fc_sets cl)) (fun best =>
    match best with
    | None => Ok None
    | Some (_, (id', s)) =>
        let merged := fold_left id_add s cluster in
        Ok (Some (mkFClusters (dset N.eq_dec (ddel N.eq_dec (ddel N.eq_dec (fc_sets cl) id) id') (fc_next cl) merged)
                              (fold_left (fun m n => dset N.eq_dec m n (fc_next cl)) merged (fc_of cl)) (N.succ (fc_next cl))))
    end)
  else Ok None.
(** A set of ids collected from nodes, fuzzy_miner.rs 218, 223. *)
Definition around (next_to : N -> list N) (cluster : list N) : list N := fold_left id_add (flat_map next_to cluster) [].
(** The loop over the sets, fuzzy_miner.rs 214-227: the first one which can be merged; [j] counts them. *)
Fixpoint merge_first (g : fgraph) (log : flog) (ord : nat -> forall A : Type, list A -> list A) (cl : fclusters) (ids : list N) (j : nat) : result (option fclusters) :=
  match ids with
  | [] => Ok None
  | id :: r =>
      match dget N.eq_dec (fc_sets cl) id with
      | None => rpanic
      | Some cluster =>
          bind (try_merge_clusters g log (ord (2 * j + 1)) cl id cluster (around (fg_outgoing g) cluster)) (fun m =>
          match m with
          | Some cl' => Ok (Some cl')
          | None =>
              bind (try_merge_clusters g log (ord (2 * j + 2)) cl id cluster (around (fg_incoming g) cluster)) (fun m =>
              match m with
              | Some cl' => Ok (Some cl')
              | None => merge_first g log ord cl r (S j)
              end)
          end)
      end
  end.

(** * Clusters as nodes *)
(** The name of a cluster, fuzzy_miner.rs 238-254. *)
Definition cluster_data (nodes_data : list (option pystr)) : pystr :=
  let s := str "Cluster[" ++ flat_map (fun d => match d with Some n => n ++ str "," | None => [] end) nodes_data in
  (if N.eqb (last s 0%N) 44 then removelast s else s) ++ str "]".
(** The sum of the numbers of edges, fuzzy_miner.rs 255-259. *)
Definition edges_sum (edges : list (option Q)) : option Q :=
  fold_left (fun s e => Some (match s with Some x => x | None => 0%Q end + match e with Some x => x | None => 0%Q end)%Q) edges (Some 0%Q).
(** find_incoming_edges, graph_clusters.rs 30-60. *)
Definition find_incoming_edges (g : fgraph) (cluster nodes : list N) : dict N (option Q) :=
  fold_left (fun m id =>
    if id_mem id cluster then m
    else match dget N.eq_dec (fg_connections g) id with
         | None => m
         | Some c => match flat_map (fun k => match dget N.eq_dec c k with Some e => [e] | None => [] end) cluster with
                     | [] => m
                     | edges => dset N.eq_dec m id (edges_sum edges)
                     end
         end) nodes [].
(** find_outgoing_edges, graph_clusters.rs 62-89. *)
Definition find_outgoing_edges (g : fgraph) (ord : forall A : Type, list A -> list A) (cluster : list N) : dict N (option Q) :=
  let found :=
    fold_left (fun m k =>
      match dget N.eq_dec (fg_connections g) k with
      | None => m
      | Some c => fold_left (fun m ce => if id_mem (fst ce) cluster then m
                                         else match dget N.eq_dec m (fst ce) with
                                              | Some es => dset N.eq_dec m (fst ce) (es ++ [snd ce])
                                              | None => dset N.eq_dec m (fst ce) [snd ce]
                                              end) (ord _ c) m
      end) cluster [] in
  map (fun ke => (fst ke, edges_sum (snd ke))) found.
(** adjust_transitions_for_cluster, graph_clusters.rs 91-134. *)
Definition adjust_transitions (g : fgraph) (cluster : list N) (id : N) (incoming outgoing : dict N (option Q)) : fgraph :=
  let connections := fold_left (fun cs ne => match dget N.eq_dec cs (fst ne) with
                                             | Some c => dset N.eq_dec cs (fst ne) (dset N.eq_dec c id (snd ne))
                                             | None => cs
                                             end) incoming (fg_connections g) in
  let connections := dset N.eq_dec connections id (fold_left (fun m ne => dset N.eq_dec m (fst ne) (snd ne)) outgoing []) in
  let connections := fold_left (ddel N.eq_dec) cluster connections in
  let connections := map (fun kc => (fst kc, fold_left (ddel N.eq_dec) cluster (snd kc))) connections in
  mkFGraph (fold_left (ddel N.eq_dec) cluster (fg_nodes g)) connections.
(** merge_nodes_into_one, graph_clusters.rs 10-28, as called in fuzzy_miner.rs 236-260. *)
Definition merge_into_one (ord : nat -> forall A : Type, list A -> list A) (gn : fgraph * N) (cluster : list N) : result (fgraph * N) :=
  let '(g, next) := gn in
  bind (mapM (fun id => match dget N.eq_dec (fg_nodes g) id with Some d => Ok d | None => rpanic end) (ord 0 _ cluster)) (fun data =>
  let g := fg_add_node g next (Some (cluster_data data)) in
  let incoming := find_incoming_edges g (ord 0 _ cluster) (ord 1 _ (dkeys (fg_nodes g))) in
  let outgoing := find_outgoing_edges g (ord 2) (ord 0 _ cluster) in
  Ok (adjust_transitions g (ord 0 _ cluster) next (ord 3 _ incoming) (ord 4 _ outgoing), N.succ next)).

Section Miner.
  Variable ords : nat -> nat -> forall A : Type, list A -> list A.

  (** initialize_fuzzy_graph, fuzzy_miner.rs 44-68. *)
  Definition initialize_fuzzy_graph (info : rinfo) (p : fparams) (next : N) : result (fgraph * N * dict pystr N) :=
    let '(g, next, ids) :=
      fold_left (fun '(g, next, ids) class =>
        if Qlt_bool (fp_unary p) (unary_significance info class) then (fg_add_node g next (Some class), N.succ next, dset str_eq_dec ids class next)
        else (g, next, ids)) (r_all_event_classes (ords 0) 10 info) (fg_empty, next, []) in
    bind (loopM (fun g ab =>
            let sig := binary_significance info (fst ab) (snd ab) in
            if Qlt_bool (fp_binary p) sig then
              bind (class_id ids (fst ab)) (fun x => bind (class_id ids (snd ab)) (fun y => Ok (fg_connect g x y (Some sig))))
            else Ok g) (list_prod (ords 0 11 _ (dkeys ids)) (ords 0 12 _ (dkeys ids))) g) (fun g =>
    Ok (g, next, ids)).
  (** resolve_conflicts, fuzzy_miner.rs 70-103. *)
  Definition resolve_conflicts (info : rinfo) (p : fparams) (ids : dict pystr N) (g : fgraph) : result fgraph :=
    loopM (fun g ab =>
      bind (class_id ids (fst ab)) (fun x => bind (class_id ids (snd ab)) (fun y =>
      if bi_connected g x y then
        bind (mapM (fun nd => match snd nd with Some n => Ok n | None => rpanic end) (ords 0 15 _ (fg_nodes g))) (fun names =>
        Ok (take_away p (relative_significance info names (fst ab) (snd ab)) (relative_significance info names (snd ab) (fst ab)) x y g))
      else Ok g))) (list_prod (ords 0 13 _ (dkeys ids)) (ords 0 14 _ (dkeys ids))) g.
  (** filter_edges, fuzzy_miner.rs 105-150. *)
  Definition filter_edges (info : rinfo) (log : flog) (p : fparams) (g : fgraph) : result fgraph :=
    loopM (fun g ns =>
      bind (fg_name g (fst ns)) (fun second =>
      bind (mapM (fun id => bind (fg_name g id) (fun first => Ok (id, utility_measure info log (fp_rate p) first second))) (ords 0 18 _ (snd ns))) (fun measures =>
      Ok (cut_weak p (fst ns) measures g)))) (ords 0 17 _ (sources_of (ords 0 16 _ (fg_edges g)))) g.

  (** find_initial_clusters, fuzzy_miner.rs 163-203; [i] counts the nodes. *)
  Fixpoint initial_clusters (g : fgraph) (info : rinfo) (log : flog) (p : fparams) (nodes : list (N * option pystr)) (i : nat) (cl : fclusters) : result fclusters :=
    match nodes with
    | [] => Ok cl
    | n :: r => bind (initial_cluster g info log p (ords (3 * i + 1)) cl n) (fun cl => initial_clusters g info log p r (S i) cl)
    end.
  (** merge_clusters, fuzzy_miner.rs 205-231; [i] counts the rounds. *)
  Fixpoint merge_clusters (g : fgraph) (log : flog) (fuel : nat) (i : nat) (cl : fclusters) : result fclusters :=
    match fuel with
    | 0 => Err Diverges
    | S fuel =>
        bind (merge_first g log (ords (3 * i + 2)) cl (ords (3 * i + 2) 0 _ (dkeys (fc_sets cl))) 0) (fun m =>
        match m with Some cl => merge_clusters g log fuel (S i) cl | None => Ok cl end)
    end.
  (** merge_nodes, fuzzy_miner.rs 233-263; [i] counts the clusters. *)
  Fixpoint merge_nodes (sets : list (list N)) (i : nat) (gn : fgraph * N) : result (fgraph * N) :=
    match sets with
    | [] => Ok gn
    | s :: r => bind (merge_into_one (ords (3 * i + 3)) gn s) (fun gn => merge_nodes r (S i) gn)
    end.
  (** The graph before clusters are looked for, fuzzy_miner.rs 23-38. *)
  Definition fuzzy_edges (log : flog) (p : fparams) (next : N) : result (rinfo * fgraph * N) :=
    let info := r_create_from (ords 0) (names_of log) false None in
    bind (initialize_fuzzy_graph info p next) (fun '(g, next, ids) =>
    bind (resolve_conflicts info p ids g) (fun g =>
    bind (filter_edges info log p g) (fun g => Ok (info, g, next)))).
  (** The clusters, fuzzy_miner.rs 154-159. *)
  Definition fuzzy_clusters (info : rinfo) (log : flog) (p : fparams) (fuel : nat) (g : fgraph) (next_set : N) : result fclusters :=
    bind (initial_clusters g info log p (ords 0 19 _ (fg_nodes g)) 0 (mkFClusters [] [] next_set)) (fun cl =>
    merge_clusters g log fuel 0 cl).
  (** discover_graph_fuzzy, fuzzy_miner.rs 13-42, with discover_clusters, 154-161; NEXT_ID and ONE_SET_NEXT_ID are [next] and [next_set]. *)
  Definition discover_graph_fuzzy (log : flog) (p : fparams) (fuel : nat) (next next_set : N) : result (fgraph * N) :=
    bind (fuzzy_edges log p next) (fun '(info, g, next) =>
    bind (fuzzy_clusters info log p fuel g next_set) (fun cl =>
    merge_nodes (map snd (ords 0 20 _ (fc_sets cl))) 0 (g, next))).
End Miner.
