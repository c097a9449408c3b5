(** Counts of events and pairs of a log in the backend and the graph made from them:
    src/rust/ficus_backend/src/features/analysis/{event_log_info,directly_follows_graph}.rs and
    src/rust/ficus_backend/src/utils/graph/graph.rs.  A log is the list of the names of its events.  HashMaps are lists
    of entries and HashSets lists without repetition; [ord] gives the order in which one is walked over, at each place of
    the program another one, which is any.  Overflow of usize is not modelled. *)
From Verif Require Import Py InfoModel XesModel ReplayModel.

(** DfgInfo, features/analysis/event_log_info.rs 207-213. *)
Record rdfg := mkRDfg {
  rd_pairs : dict pystr (dict pystr nat);
  rd_followed : dict pystr (dict pystr nat);
  rd_precedes : dict pystr (dict pystr nat);
  rd_single : list pystr }.
(** EventLogInfo, features/analysis/event_log_info.rs 8-15. *)
Record rinfo := mkRInfo {
  ri_events_count : nat;
  ri_classes : dict pystr nat;
  ri_dfg : rdfg;
  ri_traces_count : nat;
  ri_starts : list pystr;
  ri_ends : list pystr }.

(** update_pairs_count, features/analysis/event_log_info.rs 85-96. *)
Definition r_update_pairs (pairs : dict pystr (dict pystr nat)) (first second : pystr) : dict pystr (dict pystr nat) :=
  match dget str_eq_dec pairs first with
  | Some values =>
      match dget str_eq_dec values second with
      | Some count => dset str_eq_dec pairs first (dset str_eq_dec values second (count + 1))
      | None => dset str_eq_dec pairs first (dset str_eq_dec values second 1)
      end
  | None => dset str_eq_dec pairs first [(second, 1)]
  end.
(** The counts carried through the loops, features/analysis/event_log_info.rs 75-79. *)
Record rcounts := mkRCounts {
  rc_pairs : dict pystr (dict pystr nat); rc_events : dict pystr nat; rc_total : nat; rc_starts : list pystr; rc_ends : list pystr }.
(** Counting a pair, features/analysis/event_log_info.rs 85-96, 122, 129, 134. *)
Definition r_pair (c : rcounts) (a b : pystr) : rcounts :=
  mkRCounts (r_update_pairs (rc_pairs c) a b) (rc_events c) (rc_total c) (rc_starts c) (rc_ends c).
(** update_events_counts, features/analysis/event_log_info.rs 81-83 and utils/hash_map_utils.rs 4-13. *)
Definition r_event (c : rcounts) (n : pystr) : rcounts :=
  mkRCounts (rc_pairs c) (increase_in_int_map str_eq_dec (rc_events c) n) (rc_total c) (rc_starts c) (rc_ends c).
(** The loop over the events of a trace, features/analysis/event_log_info.rs 109-136. *)
Fixpoint r_info_events (ign : option (list pystr)) (fake : bool) (t : list pystr) (prev : option pystr) (c : rcounts) : rcounts :=
  match t with
  | [] => match prev with Some p => if fake then r_pair c p fake_end_name else c | None => c end
  | n :: t' =>
      if is_ignored ign n then r_info_events ign fake t' prev c
      else
        let c := r_event c n in
        match prev with
        | None => r_info_events ign fake t' (Some n) (if fake then r_pair c fake_start_name n else c)
        | Some p => r_info_events ign fake t' (Some n) (r_pair c p n)
        end
  end.
(** One trace, features/analysis/event_log_info.rs 98-136. *)
Definition r_info_trace (ign : option (list pystr)) (fake : bool) (c : rcounts) (t : list pystr) : rcounts :=
  let c := mkRCounts (rc_pairs c) (rc_events c) (rc_total c + length t) (rc_starts c) (rc_ends c) in
  let c := match t with
           | [] => c
           | first :: _ => mkRCounts (rc_pairs c) (rc_events c) (rc_total c) (set_add (rc_starts c) first) (set_add (rc_ends c) (last t first))
           end in
  r_info_events ign fake t None c.

(** The body of the loops over the pairs, features/analysis/event_log_info.rs 145-166. *)
Definition r_follow (first : pystr) (g : dict pystr (dict pystr nat) * dict pystr (dict pystr nat) * list pystr) (sv : pystr * nat) :=
  let '(followed, precedes, single) := g in
  let '(second, count) := sv in
  let '(followed, single) :=
    match dget str_eq_dec followed first with
    | Some m =>
        let single := if str_mem first single then set_remove single first else single in
        (if dmem str_eq_dec m second then followed else dset str_eq_dec followed first (dset str_eq_dec m second count), single)
    | None => (dset str_eq_dec followed first [(second, count)], set_add single first)
    end in
  let precedes :=
    match dget str_eq_dec precedes second with
    | Some m => dset str_eq_dec precedes second (dset str_eq_dec m first count)
    | None => dset str_eq_dec precedes second [(first, count)]
    end in
  (followed, precedes, single).

Section Ordered.
  Variable ord : nat -> forall A : Type, list A -> list A.

  (** features/analysis/event_log_info.rs 139-168. *)
  Definition r_make_dfg (pairs : dict pystr (dict pystr nat)) : rdfg :=
    let '(followed, precedes, single) :=
      fold_left (fun g kv => fold_left (r_follow (fst kv)) (ord 1 _ (snd kv)) g) (ord 0 _ pairs) ([], [], []) in
    mkRDfg pairs followed precedes single.
  (** EventLogInfo::create_from, features/analysis/event_log_info.rs 64-182. *)
  Definition r_create_from (log : names_log) (fake : bool) (ign : option (list pystr)) : rinfo :=
    let c := fold_left (r_info_trace ign fake) log (mkRCounts [] [] 0 [] []) in
    mkRInfo (rc_total c) (rc_events c) (r_make_dfg (rc_pairs c)) (length log) (rc_starts c) (rc_ends c).

  (** all_event_classes, features/analysis/event_log_info.rs 207-209; [k] tells the calls apart. *)
  Definition r_all_event_classes (k : nat) (info : rinfo) : list pystr := ord k _ (dkeys (ri_classes info)).
End Ordered.

(** event_count, features/analysis/event_log_info.rs 196-201. *)
Definition r_event_count (info : rinfo) (n : pystr) : nat := match dget str_eq_dec (ri_classes info) n with Some c => c | None => 0 end.
(** get_directly_follows_count, features/analysis/event_log_info.rs 229-237. *)
Definition r_directly_follows_count (g : rdfg) (a b : pystr) : nat :=
  match dget str_eq_dec (rd_pairs g) a with
  | Some values => match dget str_eq_dec values b with Some c => c | None => 0 end
  | None => 0
  end.
(** is_in_directly_follows_relation, features/analysis/event_log_info.rs 239-245. *)
Definition r_directly_follows (g : rdfg) (a b : pystr) : bool :=
  match dget str_eq_dec (rd_pairs g) a with Some values => dmem str_eq_dec values b | None => false end.
(** get_followed_events, features/analysis/event_log_info.rs 247-252. *)
Definition r_followed (g : rdfg) (a : pystr) : option (dict pystr nat) := dget str_eq_dec (rd_followed g) a.
(** get_precedes_events, features/analysis/event_log_info.rs 254-259. *)
Definition r_precedes (g : rdfg) (a : pystr) : option (dict pystr nat) := dget str_eq_dec (rd_precedes g) a.
(** is_event_with_single_follower, features/analysis/event_log_info.rs 261-263. *)
Definition r_single_follower (g : rdfg) (a : pystr) : bool := str_mem a (rd_single g).
(** count_events, features/analysis/event_log_info.rs 266-268. *)
Definition r_count_events (log : names_log) : nat := list_sum (map (@length pystr) log).

(** Graph, utils/graph/graph.rs 9-16; [next] of add_node is NEXT_ID, graph.rs 6. *)
Record rgraph := mkRGraph { rg_nodes : dict N (option pystr); rg_connections : dict N (dict N (option pystr)) }.
(** Graph::empty, utils/graph/graph.rs 23-28. *)
Definition rg_empty : rgraph := mkRGraph [] [].
(** add_node, utils/graph/graph.rs 49-55. *)
Definition rg_add_node (g : rgraph) (next : N) (data : option pystr) : rgraph * N * N :=
  (mkRGraph (dset N.eq_dec (rg_nodes g) next data) (rg_connections g), N.succ next, next).
(** are_nodes_connected, utils/graph/graph.rs 74-80. *)
Definition rg_connected (g : rgraph) (a b : N) : bool :=
  match dget N.eq_dec (rg_connections g) a with Some c => dmem N.eq_dec c b | None => false end.
(** connect_nodes, utils/graph/graph.rs 57-72. *)
Definition rg_connect (g : rgraph) (a b : N) (data : option pystr) : rgraph :=
  if rg_connected g a b then g
  else if dmem N.eq_dec (rg_nodes g) a && dmem N.eq_dec (rg_nodes g) b then
    match dget N.eq_dec (rg_connections g) a with
    | Some c => mkRGraph (rg_nodes g) (dset N.eq_dec (rg_connections g) a (dset N.eq_dec c b data))
    | None => mkRGraph (rg_nodes g) (dset N.eq_dec (rg_connections g) a [(b, data)])
    end
  else g.
(** disconnect_nodes, utils/graph/graph.rs 82-88. *)
Definition rg_disconnect (g : rgraph) (a b : N) : rgraph * bool :=
  match dget N.eq_dec (rg_connections g) a with
  | Some c => (mkRGraph (rg_nodes g) (dset N.eq_dec (rg_connections g) a (ddel N.eq_dec c b)), dmem N.eq_dec c b)
  | None => (g, false)
  end.
(** all_edges, utils/graph/graph.rs 38-47, in the order of the lists and without the ids of the edges. *)
Definition rg_all_edges (g : rgraph) : list (N * N * option pystr) :=
  flat_map (fun kv => map (fun sv => (fst kv, fst sv, snd sv)) (snd kv)) (rg_connections g).
(** outgoing_nodes, utils/graph/graph.rs 105-110. *)
Definition rg_outgoing (g : rgraph) (a : N) : list N :=
  match dget N.eq_dec (rg_connections g) a with None => [] | Some c => dkeys c end.
(** incoming_edges, utils/graph/graph.rs 112-121. *)
Definition rg_incoming (g : rgraph) (a : N) : list N :=
  map fst (filter (fun kv => dmem N.eq_dec (snd kv) a) (rg_connections g)).
(** all_connected_nodes, utils/graph/graph.rs 90-103: the name of the loop hides the argument. *)
Definition rg_all_connected (g : rgraph) (a : N) : list N :=
  rg_outgoing g a ++ map fst (filter (fun kv => dmem N.eq_dec (snd kv) (fst kv)) (rg_connections g)).

(** The edges of one class, features/analysis/directly_follows_graph.rs 14-20; get(..).unwrap(). *)
Definition r_dfg_edges (ids : dict pystr N) (a : pystr) (g : rgraph) (fc : pystr * nat) : result rgraph :=
  match dget str_eq_dec ids a, dget str_eq_dec ids (fst fc) with
  | Some x, Some y => Ok (rg_connect g x y (Some (show_int (Z.of_nat (snd fc)))))
  | _, _ => rpanic
  end.
Section Graphs.
  Variable ord : nat -> forall A : Type, list A -> list A.
  (** construct_dfg, features/analysis/directly_follows_graph.rs 5-24. *)
  Definition r_construct_dfg (info : rinfo) (next : N) : result (rgraph * N) :=
    let '(g, next, ids) :=
      fold_left (fun '(g, next, ids) class =>
                   let '(g, next, id) := rg_add_node g next (Some class) in (g, next, dset str_eq_dec ids class id))
                (r_all_event_classes ord 2 info) (rg_empty, next, []) in
    bind (loopM (fun g class =>
            match r_followed (ri_dfg info) class with
            | Some followers => loopM (r_dfg_edges ids class) (ord 4 _ followers) g
            | None => Ok g
            end) (r_all_event_classes ord 3 info) g) (fun g => Ok (g, next)).
End Graphs.
