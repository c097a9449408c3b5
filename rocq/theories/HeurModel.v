(** Discovery of Petri nets by the heuristic miner of the backend:
    src/rust/ficus_backend/src/features/discovery/heuristic/{heuristic_miner,relations_provider}.rs, utils/sets/one_set.rs
    and pipelines/discovery_parts.rs 96-118.  [ords 0] is the order in which hash tables are walked over (RInfoModel) and
    [ords (S i)] that of the tables made for the class number [i].  f64 is taken as exact rational numbers; thresholds
    which are no numbers are left out.  Equality of the sets of names is equality of 64 bit hashes; hashing is taken to be
    free of collisions (AlphaModel). *)
From Coq Require Import QArith.
From Verif Require Import Py InfoModel HashModel ReplayModel RInfoModel AlphaModel.
Open Scope nat_scope.

(** The thresholds, heuristic/relations_provider.rs 10-16. *)
Record hparams := mkHParams { hp_dependency : Q; hp_positive : nat; hp_best : Q; hp_and : Q; hp_loop : Q }.

(** A count as f64, heuristic/relations_provider.rs 105-108, 120-121, 127-128. *)
Definition qn (n : nat) : Q := inject_Z (Z.of_nat n).
(** a < b of f64, heuristic/relations_provider.rs 79, 112, 123. *)
Definition Qlt_bool (a b : Q) : bool := negb (Qle_bool b a).
(** Equality of the sets of names, utils/sets/one_set.rs 61-79. *)
Definition group_eqb (x y : list pystr) : bool := if list_eq_dec str_eq_dec x y then true else false.

Section Relations.
  Variable info : rinfo.
  Variable p : hparams.
  (** get_directly_follows_count, heuristic/relations_provider.rs 137-139. *)
  Definition h_count (a b : pystr) : nat := r_directly_follows_count (ri_dfg info) a b.
  (** calculate_dependency_measure, heuristic/relations_provider.rs 126-135. *)
  Definition dependency_measure (first second : pystr) : Q :=
    let b_follows_a := qn (h_count first second) in
    let a_follows_b := qn (h_count second first) in
    if str_eqb first second then (a_follows_b / (a_follows_b + 1))%Q
    else ((b_follows_a - a_follows_b) / (b_follows_a + a_follows_b + 1))%Q.
  (** The values collected for one class, heuristic/relations_provider.rs 54-70. *)
  Definition dependency_row (classes : list pystr) (first : pystr) : list (pystr * Q) :=
    flat_map (fun second =>
      if h_count first second <? hp_positive p then []
      else if Qle_bool (dependency_measure first second) (hp_dependency p) then []
      else [(second, dependency_measure first second)]) classes.
  (** The largest of the measures, heuristic/relations_provider.rs 75. *)
  Definition best_value (row : list (pystr * Q)) : option Q :=
    match row with [] => None | v :: r => Some (fold_left (fun best v => if Qle_bool best (snd v) then snd v else best) r (snd v)) end.
  (** Removal of the values which are too small, heuristic/relations_provider.rs 77-82: from the back, so that the others stay. *)
  Definition kept_row (row : list (pystr * Q)) : list (pystr * Q) :=
    match best_value row with
    | None => row
    | Some best => filter (fun v => negb (Qlt_bool (snd v) (best * (1 - hp_best p))%Q)) row
    end.
  (** initialize_dependency_relations, heuristic/relations_provider.rs 51-94; a class without a value has no entry. *)
  Definition dependency_relations (classes classes' : list pystr) : dict pystr (dict pystr Q) :=
    fold_left (fun relations first =>
      match dependency_row classes' first with
      | [] => relations
      | row => dset str_eq_dec relations first (fold_left (fun map v => dset str_eq_dec map (fst v) (snd v)) (kept_row row) [])
      end) classes [].
  (** and_or_xor_relation = And, heuristic/relations_provider.rs 104-117. *)
  Definition and_relation (a b c : pystr) : bool :=
    Qlt_bool (hp_and p) ((qn (h_count b c) + qn (h_count c b)) / (qn (h_count a b) + qn (h_count a c) + 1))%Q.
  (** loop_length_two_relation, heuristic/relations_provider.rs 119-124, and triangle_occurrences_count, 141-147: the list of
      calculate_triangle_relations (AlphaModel) has a pair as often as the table counts it. *)
  Definition loop_relation (triangles : list (pystr * pystr)) (first second : pystr) : bool :=
    let a_b := qn (count_occ pair_eq_dec triangles (first, second)) in
    let b_a := qn (count_occ pair_eq_dec triangles (second, first)) in
    Qlt_bool (hp_loop p) ((a_b + b_a) / (a_b + b_a + 1))%Q.
End Relations.
(** dependency_relation, heuristic/relations_provider.rs 96-102. *)
Definition dependency_relation (relations : dict pystr (dict pystr Q)) (first second : pystr) : bool :=
  match dget str_eq_dec relations first with Some values => dmem str_eq_dec values second | None => false end.

(** The pairs of followers, heuristic/heuristic_miner.rs 60-63. *)
Fixpoint pairs_of (l : list pystr) : list (pystr * pystr) := match l with [] => [] | x :: r => map (pair x) r ++ pairs_of r end.
(** and_relations, heuristic/heuristic_miner.rs 59-69, and OneSet::new_two_elements, utils/sets/one_set.rs 34-39. *)
Definition and_pairs (rel : pystr -> pystr -> bool) (followers : list pystr) : list (list pystr) :=
  fold_left (hadd group_eqb)
    (map (fun bc => bset_of [fst bc; snd bc])
      (filter (fun bc => negb (str_eqb (fst bc) (snd bc)) && rel (fst bc) (snd bc)) (pairs_of followers))) [].
(** The merger, heuristic/heuristic_miner.rs 71-82, and OneSet::merge, utils/sets/one_set.rs 41-46. *)
Definition group_merger (rel : pystr -> pystr -> bool) (first second : list pystr) : option (list pystr) :=
  let candidate := bset_of (first ++ second) in
  if forallb (fun a => forallb (fun b => str_eqb a b || rel a b) candidate) candidate then Some candidate else None.

(** add_transition(Transition::empty(.., true, ..)), petri_net/petri_net.rs 69-73, heuristic/heuristic_miner.rs 90. *)
Definition add_silent (nn : pnet * N) (name : pystr) : pnet * N * N :=
  let '(net, next) := nn in
  (mkNet (n_places net) (n_trans net ++ [mkTrans next name true [] []]) (n_initial net) (n_final net), N.succ next, next).
(** A name of a group, heuristic/heuristic_miner.rs 93-99. *)
Definition group_member (ids : dict pystr N) (id : N) (nn : pnet * N) (el : pystr) : result (pnet * N) :=
  let '(nn, place_id) := add_place nn (str "pre_" ++ el) in
  bind (connect_transition_to_place nn id place_id) (fun nn =>
  bind (class_id ids el) (fun t => connect_place_to_transition nn place_id t)).
(** A group, heuristic/heuristic_miner.rs 88-100. *)
Definition add_group (ids : dict pystr N) (first_class : pystr) (post_place_id : N) (nn : pnet * N) (group : list pystr) : result (pnet * N) :=
  let '(nn, id) := add_silent nn (str "silent_start_" ++ first_class) in
  bind (connect_place_to_transition nn post_place_id id) (fun nn => loopM (group_member ids id) group nn).

Section Miner.
  Variable ords : nat -> nat -> forall A : Type, list A -> list A.
  Variable fuel : nat.

  (** What is done for one class, heuristic/heuristic_miner.rs 47-107. *)
  Definition add_class (ids : dict pystr N) (dep : pystr -> pystr -> bool) (rel : pystr -> pystr -> pystr -> bool) (classes : list pystr)
    (nn : pnet * N) (i : nat) (first_class : pystr) : result (pnet * N) :=
    match filter (dep first_class) classes with
    | [] => Ok nn
    | followers =>
        bind (maximize group_eqb (group_merger (rel first_class)) (ords (S i)) fuel 100 (and_pairs (rel first_class) followers)) (fun parallel_groups =>
        let '(nn, post_place_id) := add_place nn (str "post_" ++ first_class) in
        bind (class_id ids first_class) (fun t =>
        bind (connect_transition_to_place nn t post_place_id) (fun nn =>
        bind (loopM (add_group ids first_class post_place_id) (ords (S i) 10 _ parallel_groups) nn) (fun nn =>
        loopM (fun nn follower => bind (class_id ids follower) (fun t => connect_place_to_transition nn post_place_id t))
          (filter (fun f => negb (str_mem f (concat parallel_groups))) followers) nn))))
    end.
  (** The loop over the classes, heuristic/heuristic_miner.rs 47-107. *)
  Fixpoint add_classes (ids : dict pystr N) (dep : pystr -> pystr -> bool) (rel : pystr -> pystr -> pystr -> bool) (classes : list pystr)
    (todo : list pystr) (i : nat) (nn : pnet * N) : result (pnet * N) :=
    match todo with
    | [] => Ok nn
    | c :: r => bind (add_class ids dep rel classes nn i c) (fun nn => add_classes ids dep rel classes r (S i) nn)
    end.
  (** construct_heuristic_petri_net, heuristic/heuristic_miner.rs 40-108. *)
  Definition construct_heuristic_petri_net (info : rinfo) (p : hparams) (next : N) : result (pnet * N) :=
    let relations := dependency_relations info p (r_all_event_classes (ords 0) 30 info) (r_all_event_classes (ords 0) 31 info) in
    let '(nn, ids) := class_transitions (r_all_event_classes (ords 0) 32 info) (empty_net, next) in
    add_classes ids (dependency_relation relations) (and_relation info p) (r_all_event_classes (ords 0) 34 info)
      (r_all_event_classes (ords 0) 33 info) 0 nn.
  (** find_transition_by_name, petri_net/petri_net.rs 143-151, in whatever order the table gives the transitions. *)
  Definition find_named (net : pnet) (name : pystr) : result ptrans :=
    match find (fun t => str_eqb (tr_name t) name) (ords 0 37 _ (n_trans net)) with Some t => Ok t | None => rpanic end.
  (** The loops over pairs of classes, heuristic/heuristic_miner.rs 113-128: the arcs to be added, from places and to places. *)
  Definition loop_arcs (net : pnet) (rel : pystr -> pystr -> bool) (classes classes' : list pystr) : result (list (N * N) * list (N * N)) :=
    loopM (fun found ab =>
      if negb (str_eqb (fst ab) (snd ab)) && rel (fst ab) (snd ab) then
        bind (find_named net (fst ab)) (fun first => bind (find_named net (snd ab)) (fun second =>
        Ok (fst found ++ map (fun a => (arc_place a, tr_id first)) (tr_out second),
            snd found ++ map (fun a => (tr_id first, arc_place a)) (tr_in second))))
      else Ok found) (list_prod classes classes') ([], []).
  (** add_length_two_loops, heuristic/heuristic_miner.rs 110-137. *)
  Definition add_length_two_loops (info : rinfo) (p : hparams) (triangles : list (pystr * pystr)) (nn : pnet * N) : result (pnet * N) :=
    bind (loop_arcs (fst nn) (loop_relation p triangles) (r_all_event_classes (ords 0) 35 info) (r_all_event_classes (ords 0) 36 info)) (fun '(from_places, to_places) =>
    bind (loopM (fun nn c => connect_place_to_transition nn (fst c) (snd c)) from_places nn) (fun nn =>
    loopM (fun nn c => connect_transition_to_place nn (fst c) (snd c)) to_places nn)).
  (** discover_petri_net_heuristic, heuristic/heuristic_miner.rs 12-38. *)
  Definition discover_petri_net_heuristic (log : names_log) (p : hparams) (next : N) : result (pnet * N) :=
    let info := r_create_from (ords 0) log false None in
    bind (calculate_triangle_relations log) (fun triangles =>
    bind (construct_heuristic_petri_net info p next) (fun nn => add_length_two_loops info p triangles nn)).
End Miner.
