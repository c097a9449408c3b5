(** Discovery of Petri nets by the alpha algorithms of the backend:
    src/rust/ficus_backend/src/features/discovery/alpha/{alpha,alpha_set,utils}.rs, alpha/providers/{alpha_provider,
    alpha_plus_provider}.rs, utils/sets/two_sets.rs, utils/hash_utils.rs and pipelines/discovery_parts.rs.
    [ord] is the order in which hash tables are walked over (RInfoModel).  Equality of sets is equality of 64 bit hashes;
    hashing is taken to be free of collisions, so what is compared is the sequence of strings which are hashed.  The
    text of a string ends with a byte which is in no string, so the sequence is known from the bytes. *)
From Verif Require Import Py InfoModel HashModel ReplayModel RInfoModel.

(** BTreeSet<String>: insert; strings are compared by bytes of UTF-8, that is by code points.  utils/sets/two_sets.rs 5-11. *)
Fixpoint bset_insert (x : pystr) (l : list pystr) : list pystr :=
  match l with
  | [] => [x]
  | y :: r => if str_eqb x y then l else if str_leb x y then x :: l else y :: bset_insert x r
  end.
(** Collecting into a BTreeSet, utils/sets/two_sets.rs 42-43. *)
Definition bset_of (l : list pystr) : list pystr := fold_left (fun s x => bset_insert x s) l [].
(** BTreeSet::is_subset, utils/sets/two_sets.rs 63-69. *)
Definition bset_subset (a b : list pystr) : bool := forallb (fun x => str_mem x b) a.

(** AlphaSet, alpha/alpha_set.rs 6-9 and TwoSets, utils/sets/two_sets.rs 5-11. *)
Record aset := mkASet { as_left : list pystr; as_right : list pystr }.
(** AlphaSet::empty, alpha/alpha_set.rs 12-16. *)
Definition as_empty : aset := mkASet [] [].
(** AlphaSet::new, alpha/alpha_set.rs 18-22. *)
Definition as_new (left_class right_class : pystr) : aset := mkASet [left_class] [right_class].
(** alpha/alpha_set.rs 24-26. *)
Definition is_left_subset (x y : aset) : bool := bset_subset (as_left x) (as_left y).
(** alpha/alpha_set.rs 28-30. *)
Definition is_right_subset (x y : aset) : bool := bset_subset (as_right x) (as_right y).
(** alpha/alpha_set.rs 32-34. *)
Definition is_full_subset (x y : aset) : bool := is_left_subset x y && is_right_subset x y.
(** insert_left_class and insert_right_class, alpha/alpha_set.rs 52-58. *)
Definition insert_left_class (x : aset) (c : pystr) : aset := mkASet (bset_insert c (as_left x)) (as_right x).
(** alpha/alpha_set.rs 56-58. *)
Definition insert_right_class (x : aset) (c : pystr) : aset := mkASet (as_left x) (bset_insert c (as_right x)).
(** extend, alpha/alpha_set.rs 88-92, and merge, utils/sets/two_sets.rs 40-45. *)
Definition extend (x y : aset) : aset := mkASet (bset_of (as_left x ++ as_left y)) (bset_of (as_right x ++ as_right y)).
(** == of AlphaSet: equal hashes, alpha/alpha_set.rs 101-105, utils/hash_utils.rs 25-33, utils/sets/two_sets.rs 76-84. *)
Definition as_eqb (x y : aset) : bool :=
  if list_eq_dec str_eq_dec (as_left x ++ as_right x) (as_left y ++ as_right y) then true else false.
(** The items with a comma after each but the last, utils/sets/two_sets.rs 118-130. *)
Fixpoint comma_items (l : list pystr) : pystr :=
  match l with [] => [] | [x] => x | x :: r => x ++ str "," ++ comma_items r end.
(** to_string, utils/sets/two_sets.rs 110-141. *)
Definition as_string (x : aset) : pystr :=
  str "({" ++ comma_items (as_left x) ++ str "}, {" ++ comma_items (as_right x) ++ str "})".

(** AlphaRelationsProvider, alpha/providers/alpha_provider.rs 3-10. *)
Record aprovider := mkProvider { ap_info : rinfo; ap_causal : pystr -> pystr -> bool; ap_unrelated : pystr -> pystr -> bool }.
(** DefaultAlphaRelationsProvider, alpha/providers/alpha_provider.rs 22-42. *)
Definition default_provider (info : rinfo) : aprovider :=
  let direct := r_directly_follows (ri_dfg info) in
  mkProvider info (fun a b => direct a b && negb (direct b a)) (fun a b => negb (direct a b) && negb (direct b a)).

(** can_extend, alpha/alpha_set.rs 60-86. *)
Definition can_extend (p : aprovider) (x y : aset) : bool :=
  let lefts := as_left x ++ as_left y in
  let rights := as_right x ++ as_right y in
  forallb (fun l => forallb (ap_causal p l) rights) lefts &&
  forallb (fun l => forallb (ap_unrelated p l) lefts) lefts &&
  forallb (fun r => forallb (ap_unrelated p r) rights) rights.

Section Maximize.
  Context {T : Type}.
  Variable eqb : T -> T -> bool.
  Variable merger : T -> T -> option T.
  (** HashSet::insert, alpha/utils.rs 21, 35. *)
  Definition hadd (s : list T) (x : T) : list T := if existsb (eqb x) s then s else s ++ [x].
  (** HashSet<usize>::insert, alpha/utils.rs 22-23. *)
  Definition nadd (s : list nat) (i : nat) : list nat := if existsb (Nat.eqb i) s then s else s ++ [i].
  (** The body of the loops over i and j, alpha/utils.rs 18-25. *)
  Definition max_pair (vec : list T) (acc : list T * list nat * bool) (ij : nat * nat) : list T * list nat * bool :=
    let '(new_elements, merged_indices, any_change) := acc in
    let '(i, j) := ij in
    if i =? j then acc
    else match nth_error vec i, nth_error vec j with
         | Some x, Some y =>
             match merger x y with
             | Some merged => (hadd new_elements merged, nadd (nadd merged_indices i) j, true)
             | None => acc
             end
         | _, _ => acc
         end.
  (** One round of the loop, alpha/utils.rs 11-39; None is the break. *)
  Definition max_round (vec : list T) : option (list T) :=
    let n := length vec in
    let '(new_elements, merged_indices, any_change) :=
      fold_left (max_pair vec) (list_prod (seq 0 n) (seq 0 n)) ([], [], false) in
    if any_change then
      Some (fold_left (fun new i => if existsb (Nat.eqb i) merged_indices then new
                                    else match nth_error vec i with Some x => hadd new x | None => new end) (seq 0 n) new_elements)
    else None.
  Variable ord : nat -> forall A : Type, list A -> list A.
  (** maximize, alpha/utils.rs 4-43; [k] numbers the rounds. *)
  Fixpoint maximize (fuel : nat) (k : nat) (current : list T) : result (list T) :=
    match fuel with
    | 0 => Err Diverges
    | S fuel' => match max_round (ord k _ current) with None => Ok current | Some new => maximize fuel' (S k) new end
    end.
End Maximize.

(** The merger of maximize_sets, alpha/alpha.rs 165-172. *)
Definition set_merger (p : aprovider) (first second : aset) : option aset :=
  if (is_left_subset first second || is_right_subset first second) && can_extend p first second then Some (extend first second) else None.

(** add_transition(Transition::empty(..)), petri_net/petri_net.rs 69-73 and transition.rs; the class is the data too. *)
Definition add_transition (nn : pnet * N) (name : pystr) : pnet * N * N :=
  let '(net, next) := nn in
  (mkNet (n_places net) (n_trans net ++ [mkTrans next name false [] []]) (n_initial net) (n_final net), N.succ next, next).
(** event_classes_to_transition_ids[..], alpha/alpha.rs 200, 204, 210, 215: a missing class is a panic. *)
Definition class_id (ids : dict pystr N) (c : pystr) : result N := match dget str_eq_dec ids c with Some i => Ok i | None => rpanic end.
(** PetriNet::empty, petri_net/petri_net.rs 41-49. *)
Definition empty_net : pnet := mkNet [] [] None None.

Section Discover.
  Variable ord : nat -> forall A : Type, list A -> list A.

  (** create_initial_sets, alpha/alpha.rs 144-162; the final filter never drops a set. *)
  Definition create_initial_sets (p : aprovider) : list aset :=
    let info := ap_info p in
    fold_left (hadd as_eqb)
      (filter (fun x => (0 <? length (as_left x)) && (0 <? length (as_right x)))
        (flat_map (fun class =>
            map (as_new class) (filter (fun c => ap_causal p class c && ap_unrelated p c c) (r_all_event_classes ord 6 info)))
          (filter (fun class => match r_followed (ri_dfg info) class with Some _ => true | None => false end && ap_unrelated p class class)
             (r_all_event_classes ord 5 info)))) [].
  (** maximize_sets, alpha/alpha.rs 164-173. *)
  Definition maximize_sets (fuel : nat) (p : aprovider) (sets : list aset) : result (list aset) :=
    maximize as_eqb (set_merger p) ord fuel 100 sets.
  (** filter_out_non_maximal_sets, alpha/alpha.rs 175-184. *)
  Definition filter_out_non_maximal_sets (sets : list aset) : list aset :=
    filter (fun x => negb (existsb (fun c => negb (as_eqb x c) && is_full_subset x c) sets)) (ord 7 _ sets).

  (** The transitions of the classes, alpha/alpha.rs 188-192. *)
  Definition class_transitions (classes : list pystr) (nn : pnet * N) : pnet * N * dict pystr N :=
    fold_left (fun '(nn, ids) class => let '(nn, id) := add_transition nn class in (nn, dset str_eq_dec ids class id)) classes (nn, []).
  (** The place of an alpha set, alpha/alpha.rs 194-206; the table of the alpha sets kept in the places comes along. *)
  Definition set_place (ids : dict pystr N) (st : pnet * N * dict N aset) (x : aset) : result (pnet * N * dict N aset) :=
    let '(nn, table) := st in
    let '(nn, place) := add_place nn (as_string x) in
    bind (loopM (fun nn c => bind (class_id ids c) (fun t => connect_transition_to_place nn t place)) (as_left x) nn) (fun nn =>
    bind (loopM (fun nn c => bind (class_id ids c) (fun t => connect_place_to_transition nn place t)) (as_right x) nn) (fun nn =>
    Ok (nn, dset N.eq_dec table place x))).
  (** create_petri_net, alpha/alpha.rs 186-222. *)
  Definition create_petri_net (info : rinfo) (sets : list aset) (next : N) : result (pnet * N * dict N aset) :=
    let '(nn, ids) := class_transitions (r_all_event_classes ord 8 info) (empty_net, next) in
    bind (loopM (set_place ids) sets (nn, [])) (fun '(nn, table) =>
    let '(nn, start_place) := add_place nn (str "StartPlace") in
    bind (loopM (fun nn c => bind (class_id ids c) (fun t => connect_place_to_transition nn start_place t)) (ord 9 _ (ri_starts info)) nn) (fun nn =>
    let '(nn, end_place) := add_place nn (str "EndPlace") in
    bind (loopM (fun nn c => bind (class_id ids c) (fun t => connect_transition_to_place nn t end_place)) (ord 10 _ (ri_ends info)) nn) (fun nn =>
    let '(net, next) := nn in
    Ok (mkNet (n_places net) (n_trans net) (Some [(start_place, 1)]) (Some [(end_place, 1)]), next, table)))).
  (** do_discover_petri_net_alpha, alpha/alpha.rs 137-142, and discover_petri_net_alpha, 22-24. *)
  Definition discover_petri_net_alpha (fuel : nat) (p : aprovider) (next : N) : result (pnet * N * dict N aset) :=
    bind (maximize_sets fuel p (create_initial_sets p)) (fun sets =>
    create_petri_net (ap_info p) (filter_out_non_maximal_sets sets) next).
  (** The pipeline part, pipelines/discovery_parts.rs 19-30. *)
  Definition discover_alpha_part (fuel : nat) (log : names_log) (next : N) : result (pnet * N * dict N aset) :=
    discover_petri_net_alpha fuel (default_provider (r_create_from ord log false None)) next.
End Discover.

(** find_transitions_one_length_loop for one trace, alpha/alpha.rs 124-132: for an empty trace the bound of the loop
    underflows and reading an event is a panic in any build. *)
Definition one_length_loops_trace (found : list pystr) (t : list pystr) : result (list pystr) :=
  match t with
  | [] => rpanic
  | _ => Ok (fold_left (fun found i =>
               match nth_error t i, nth_error t (i + 1) with
               | Some a, Some b => if str_eqb a b then set_add found a else found
               | _, _ => found
               end) (seq 0 (length t - 1)) found)
  end.
(** find_transitions_one_length_loop, alpha/alpha.rs 122-135. *)
Definition find_transitions_one_length_loop (log : names_log) : result (list pystr) := loopM one_length_loops_trace log [].
(** calculate_triangle_relations for one trace, alpha/providers/alpha_plus_provider.rs 40-58; the counts are left out.
    With less than two events the bound underflows and reading an event is a panic in any build. *)
Definition triangles_trace (found : list (pystr * pystr)) (t : list pystr) : result (list (pystr * pystr)) :=
  match t with
  | [] | [_] => rpanic
  | _ => Ok (fold_left (fun found i =>
               match nth_error t i, nth_error t (i + 1), nth_error t (i + 2) with
               | Some a, Some b, Some c => if str_eqb a c then found ++ [(a, b)] else found
               | _, _, _ => found
               end) (seq 0 (length t - 2)) found)
  end.
(** calculate_triangle_relations, alpha/providers/alpha_plus_provider.rs 36-62. *)
Definition calculate_triangle_relations (log : names_log) : result (list (pystr * pystr)) := loopM triangles_trace log [].
(** AlphaPlusRelationsProviderImpl, alpha/providers/alpha_plus_provider.rs 64-100. *)
Definition plus_provider (info : rinfo) (triangles : list (pystr * pystr)) : aprovider :=
  let direct := r_directly_follows (ri_dfg info) in
  let triangle := fun a b => if in_dec pair_eq_dec (a, b) triangles then true else false in
  let romb := fun a b => triangle a b && triangle b a in
  mkProvider info (fun a b => direct a b && (negb (direct b a) || romb a b)) (fun a b => negb (direct a b) && negb (direct b a)).

(** Equality of the pairs in the sets of connections, alpha/alpha.rs 80-81. *)
Definition conn_eq_dec (a b : N * N) : {a = b} + {a <> b}.
Proof. decide equality; apply N.eq_dec. Defined.
(** Collecting the connections in a HashSet, alpha/alpha.rs 80-81, 93, 105. *)
Definition pairs_once (l : list (N * N)) : list (N * N) := nodup conn_eq_dec l.

Section DiscoverPlus.
  Variable ord : nat -> forall A : Type, list A -> list A.
  (** find_place_id_by_name, petri_net/petri_net.rs 133-141. *)
  Definition find_place_id_by_name (net : pnet) (name : pystr) : option N :=
    match find (fun kv => str_eqb (snd kv) name) (ord 21 _ (n_places net)) with Some kv => Some (fst kv) | None => None end.
  (** The alpha set of the neighbours of a class, alpha/alpha.rs 45-60. *)
  Definition neighbours_set (info : rinfo) (name : pystr) : aset :=
    let x := match r_followed (ri_dfg info) name with
             | Some m => fold_left insert_right_class (filter (fun e => negb (str_eqb e name)) (dkeys (ord 22 _ m))) as_empty
             | None => as_empty
             end in
    match r_precedes (ri_dfg info) name with
    | Some m => fold_left insert_left_class (filter (fun e => negb (str_eqb e name)) (dkeys (ord 23 _ m))) x
    | None => x
    end.
  (** One transition, alpha/alpha.rs 44-75. *)
  Definition add_one_length_loop (info : rinfo) (nn : pnet * N) (name : pystr) : result (pnet * N) :=
    let alpha_set := neighbours_set info name in
    let '(nn, id) := add_transition nn name in
    let '(nn, place_id) :=
      match find_place_id_by_name (fst nn) (as_string alpha_set) with
      | Some found => (nn, found)
      | None => add_place nn (as_string alpha_set)
      end in
    bind (connect_transition_to_place nn id place_id) (fun nn => connect_place_to_transition nn place_id id).
  (** add_one_length_loops, alpha/alpha.rs 41-76. *)
  Definition add_one_length_loops (log : names_log) (loops : list pystr) (nn : pnet * N) : result (pnet * N) :=
    loopM (add_one_length_loop (r_create_from ord log false None)) (ord 20 _ loops) nn.
  (** The connections found for the arcs of a transition, alpha/alpha.rs 87-107: the places at the arcs, not [place] itself,
      whose alpha set contains that of [place]; petri_net.place(..) is an unwrap. *)
  Definition plus_plus_places (net : pnet) (table : dict N aset) (place : N) (x : aset) (arcs : list parc) : result (list N) :=
    loopM (fun found a =>
      if N.eqb (arc_place a) place then Ok found
      else match dget N.eq_dec (n_places net) (arc_place a) with
           | None => rpanic
           | Some _ =>
               match dget N.eq_dec table (arc_place a) with
               | Some y => if is_full_subset x y then Ok (hset_insert found (arc_place a)) else Ok found
               | None => Ok found
               end
           end) arcs [].
  (** add_alpha_plus_plus_transitions, alpha/alpha.rs 78-120. *)
  Definition add_alpha_plus_plus_transitions (loops : list pystr) (table : dict N aset) (nn : pnet * N) : result (pnet * N) :=
    let net := fst nn in
    bind (mapM (fun name =>
      match find_transition_by_name net name with
      | None => Ok ([], [])
      | Some t =>
          bind (mapM (fun kv =>
            match dget N.eq_dec table (fst kv) with
            | None => Ok ([], [])
            | Some x =>
                bind (plus_plus_places net table (fst kv) x (tr_out t)) (fun outs =>
                bind (plus_plus_places net table (fst kv) x (tr_in t)) (fun ins =>
                Ok (map (fun p => (tr_id t, p)) outs, map (fun p => (p, tr_id t)) ins)))
            end) (ord 24 _ (n_places net))) (fun found => Ok (concat (map fst found), concat (map snd found)))
      end) (ord 25 _ loops)) (fun found =>
    bind (loopM (fun nn c => connect_transition_to_place nn (fst c) (snd c)) (ord 26 _ (pairs_once (concat (map fst found)))) nn) (fun nn =>
    loopM (fun nn c => connect_place_to_transition nn (fst c) (snd c)) (ord 27 _ (pairs_once (concat (map snd found)))) nn)).
  (** discover_petri_net_alpha_plus, alpha/alpha.rs 26-39. *)
  Definition discover_petri_net_alpha_plus (fuel : nat) (log : names_log) (p : aprovider) (loops : list pystr) (plus_plus : bool) (next : N)
    : result (pnet * N * dict N aset) :=
    bind (discover_petri_net_alpha ord fuel p next) (fun '(nn, table) =>
    bind (add_one_length_loops log loops nn) (fun nn =>
    bind (if plus_plus then add_alpha_plus_plus_transitions loops table nn else Ok nn) (fun nn => Ok (nn, table)))).
  (** do_discover_petri_net_alpha_plus, pipelines/discovery_parts.rs 51-68. *)
  Definition discover_alpha_plus_part (fuel : nat) (log : names_log) (plus_plus : bool) (next : N) : result (pnet * N * dict N aset) :=
    bind (find_transitions_one_length_loop log) (fun loops =>
    bind (calculate_triangle_relations log) (fun triangles =>
    discover_petri_net_alpha_plus fuel log (plus_provider (r_create_from ord log false (Some loops)) triangles) loops plus_plus next)).
End DiscoverPlus.
