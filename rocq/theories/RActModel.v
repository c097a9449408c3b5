(** Discovery of activities in the backend: src/rust/ficus_backend/src/utils/hash_utils.rs and
    src/rust/ficus_backend/src/features/analysis/patterns/{tandem_arrays,repeat_sets,activity_instances}.rs (short:
    tandem_arrays.rs and so on).  Event classes are the u64 hashes, as numbers.  [sip] is what std's DefaultHasher gives for
    a u64.  HashSets and HashMaps are walked over in any order, [ord].  Nodes behind Rc<RefCell<..>> are shared but
    never changed once the forest is built; they are kept in an arena while it is built, as in TreeModel.  A panic is
    [rpanic]; overflow of u64 is a panic, as in a debug build; overflow of usize is not modelled. *)
From Verif Require Import Py ReplayModel PatternModel TreeModel ActModel.
From Verif Require SufModel.

Section Hash.
  Variable sip : N -> N.

  (** 2^64, the range of u64, utils/hash_utils.rs 7. *)
  Definition u64_range : N := 18446744073709551616%N.
  (** POW and MOD, utils/hash_utils.rs 4-5. *)
  Definition poly_pow : N := 31%N.
  (** utils/hash_utils.rs 5. *)
  Definition poly_mod : N := 1000000007%N.

  (** One element, utils/hash_utils.rs 14-20; the state is (hash, pow). *)
  Definition poly_step (st : N * N) (element : N) : result (N * N) :=
    let '(hash, pow) := st in
    let plus_one := (1 + sip element)%N in
    if (u64_range <=? plus_one)%N then rpanic
    else let sum := (hash + (plus_one * pow) mod u64_range)%N in
         if (u64_range <=? sum)%N then rpanic
         else Ok ((sum mod poly_mod)%N, (((pow * poly_pow) mod u64_range) mod poly_mod)%N).
  (** calculate_poly_hash_for_collection, utils/hash_utils.rs 7-24. *)
  Definition poly_hash (slice : list N) : result N := bind (loopM poly_step slice (1%N, 1%N)) (fun st => Ok (fst st)).

  (** trace[i], tandem_arrays.rs 137. *)
  Definition elem_at (trace : list N) (i : nat) : result N := SufModel.unwrap (nth_error trace i).
  (** Whether the block at current_index repeats the one at start_index, tandem_arrays.rs 136-140. *)
  Fixpoint r_same_block (trace : list N) (current start : nat) (offsets : list nat) : result bool :=
    match offsets with
    | [] => Ok true
    | i :: rest =>
        bind (elem_at trace (current + i)) (fun a => bind (elem_at trace (start + i)) (fun b =>
        if N.eqb a b then r_same_block trace current start rest else Ok false))
    end.
  (** The loop of tandem_arrays.rs 131-144, for length >= 1. *)
  Fixpoint r_count (fuel : nat) (trace : list N) (start length current count : nat) : result nat :=
    match fuel with
    | O => Err Diverges
    | S fuel' =>
        if List.length trace <=? current + length - 1 then Ok count
        else bind (r_same_block trace current start (range 0 length)) (fun same =>
             if same then r_count fuel' trace start length (current + length) (count + 1) else Ok count)
    end.
  (** try_extract_tandem_array, tandem_arrays.rs 127-155. *)
  Definition r_try_extract (trace : list N) (start length : nat) : result (option tandem_info) :=
    bind (r_count (S (List.length trace)) trace start length (start + length) 1) (fun n =>
    Ok (if 1 <? n then Some (mkTandem start length n) else None)).

  (** One window, tandem_arrays.rs 109-117; the state is (visited, trace_tandem_arrays). *)
  Definition r_tandem_step (trace : list N) (st : list N * list tandem_info) (w : nat * nat) : result (list N * list tandem_info) :=
    let '(visited, arrays) := st in
    let '(length, i) := w in
    bind (SufModel.range_of trace i (i + length)) (fun word => bind (poly_hash word) (fun h =>
    if existsb (N.eqb h) visited then Ok (visited, arrays)
    else bind (r_try_extract trace i length) (fun o =>
         Ok (h :: visited, match o with Some a => arrays ++ [a] | None => arrays end)))).
  (** The pairs visited by the loops of tandem_arrays.rs 107-108. *)
  Definition r_windows (n max : nat) : list (nat * nat) :=
    flat_map (fun length => map (fun i => (length, i)) (range 0 (n - length))) (range 2 (Nat.min max n)).
  (** One trace, tandem_arrays.rs 103-122. *)
  Definition r_maximal_of_trace (max : nat) (trace : list N) : result (list tandem_info) :=
    bind (loopM (r_tandem_step trace) (r_windows (length trace) max) ([], [])) (fun st => Ok (snd st)).
  (** find_maximal_tandem_arrays_with_length, tandem_arrays.rs 95-125. *)
  Definition r_find_maximal (log : list (list N)) (max : nat) : result (list (list tandem_info)) := mapM (r_maximal_of_trace max) log.

  (** is_primitive, tandem_arrays.rs 68-74. *)
  Fixpoint r_is_primitive (trace : list N) (start : nat) (lengths : list nat) : result bool :=
    match lengths with
    | [] => Ok true
    | L :: rest => bind (r_try_extract trace start L) (fun o => match o with Some _ => Ok false | None => r_is_primitive trace start rest end)
    end.
  (** find_primitive_tandem_arrays_with_length, tandem_arrays.rs 57-85. *)
  Definition r_find_primitive (log : list (list N)) (max : nat) : result (list (list tandem_info)) :=
    bind (r_find_maximal log max) (fun maximal =>
    mapM (fun p => filterM (fun a => r_is_primitive (snd p) (ta_first_pos a) (range 2 ((ta_length a + 1) / 2 + 1))) (fst p)) (combine maximal log)).
  (** array.sub_array of find_maximal_tandem_arrays and find_primitive_tandem_arrays, tandem_arrays.rs 49-55 and 87-93. *)
  Definition tandem_sub (a : tandem_info) : sub_array := mkSub (ta_first_pos a) (ta_length a).
  (** find_maximal_tandem_arrays, tandem_arrays.rs 87-93. *)
  Definition r_maximal_subs (log : list (list N)) (max : nat) : result (list (list sub_array)) :=
    bind (r_find_maximal log max) (fun r => Ok (map (map tandem_sub) r)).
  (** find_primitive_tandem_arrays, tandem_arrays.rs 49-55. *)
  Definition r_primitive_subs (log : list (list N)) (max : nat) : result (list (list sub_array)) :=
    bind (r_find_primitive log max) (fun r => Ok (map (map tandem_sub) r)).

  Variable ord : nat -> forall A, list A -> list A.

  (** vec.sort() on u64, repeat_sets.rs 45. *)
  Fixpoint insert_u64 (x : N) (l : list N) : list N :=
    match l with
    | [] => [x]
    | y :: r => if N.leb x y then x :: y :: r else y :: insert_u64 x r
    end.
  (** repeat_sets.rs 38-45: the set of the elements, poured into a vector and sorted. *)
  Definition r_sorted_classes (word : list N) : list N := fold_right insert_u64 [] (ord 0 _ (nodup N.eq_dec word)).
  (** One pattern, repeat_sets.rs 35-51. *)
  Definition r_repeat_step (index : nat) (trace : list N) (acc : dict N repeat_set) (s : sub_array) : result (dict N repeat_set) :=
    bind (SufModel.range_of trace (sa_first_pos s) (sa_first_pos s + sa_length s)) (fun word =>
    bind (poly_hash (r_sorted_classes word)) (fun h =>
    Ok (if dmem N.eq_dec acc h then acc else dset N.eq_dec acc h (mkRS (sa_first_pos s) (sa_length s) index)))).
  (** The loops, repeat_sets.rs 33-55. *)
  Fixpoint r_repeat_loop (index : nat) (pairs : list (list N * list sub_array)) (acc : dict N repeat_set) : result (dict N repeat_set) :=
    match pairs with
    | [] => Ok acc
    | (trace, subs) :: rest => bind (loopM (r_repeat_step index trace) subs acc) (fun acc => r_repeat_loop (S index) rest acc)
    end.
  (** The comparison, repeat_sets.rs 62-72: first <= second. *)
  Definition rs_leb (a b : repeat_set) : bool :=
    if rs_trace_index a =? rs_trace_index b then
      if negb (rs_first_pos a =? rs_first_pos b) then rs_first_pos a <=? rs_first_pos b else rs_length a <=? rs_length b
    else rs_trace_index a <=? rs_trace_index b.
  (** sort_by is stable, repeat_sets.rs 62. *)
  Fixpoint insert_rs (x : repeat_set) (l : list repeat_set) : list repeat_set :=
    match l with
    | [] => [x]
    | y :: r => if rs_leb x y then x :: y :: r else y :: insert_rs x r
    end.
  (** build_repeat_sets, repeat_sets.rs 27-75. *)
  Definition r_build_repeat_sets (log : list (list N)) (patterns : list (list sub_array)) : result (list repeat_set) :=
    bind (r_repeat_loop 0 (combine log patterns) []) (fun d => Ok (fold_right insert_rs [] (ord 1 _ (dvalues d)))).
End Hash.

Section Tree.
  Context {D : Type}.
  Variable nodes : list (raw_node D).

  (** One node, repeat_sets.rs 159-194.  nodes_by_level without its last entry is walked over from the back; every node
      that contains the current one gets it as a child, and when there is none, every top level node that does. *)
  Definition r_tree_step (st : tree_state) (i : nat) : tree_state :=
    let '(levels, len) := if length (set_at nodes i) <? ts_length st
                          then (ts_levels st ++ [[]], length (set_at nodes i)) else (ts_levels st, ts_length st) in
    let test := fun p => contains_set (set_at nodes p) (set_at nodes i) in
    let in_levels := flat_map (filter test) (rev (removelast levels)) in
    let parents := match in_levels with [] => filter test (ts_tops st) | _ => in_levels end in
    mkTS (ts_links st ++ map (fun p => (i, p)) parents)
         (match parents with [] => ts_tops st ++ [i] | _ => ts_tops st end) (push_last levels i) len.

  (** repeat_sets.rs 137-196 on the sorted nodes, of which there is at least one: links and top level nodes. *)
  Definition r_build_links : list (nat * nat) * list nat :=
    match nodes with
    | [] => ([], [])
    | x :: _ =>
        let k := count_leading (length (rn_set x)) nodes in
        let top := seq 0 k in
        if k =? length nodes then ([], top)
        else let st := fold_left r_tree_step (range k (length nodes)) (mkTS [] top [[]] (length (set_at nodes k))) in
             (ts_links st, ts_tops st)
    end.
End Tree.

(** build_repeat_set_tree_from_repeats, repeat_sets.rs 96-197, after the nodes are made; a shared child shows up below each
    of its parents. *)
Definition r_build_tree {D} (input : list (raw_node D)) : list (anode D) :=
  let nodes := sort_desc input in
  let '(links, tops) := r_build_links nodes in
  flat_map (fun i => match reify nodes links (length nodes) i with Some a => [a] | None => [] end) tops.

(** extract_events_set, repeat_sets.rs 109-118. *)
Definition r_events_set (log : list (list N)) (r : repeat_set) : result (list N) :=
  bind (SufModel.unwrap (nth_error log (rs_trace_index r))) (fun trace =>
  bind (mapM (elem_at trace) (range (rs_first_pos r) (rs_first_pos r + rs_length r))) (fun word => Ok (nodup N.eq_dec word))).
(** repeat_sets.rs 96-197; [make] builds the repeat set, the level and the name of a node, lines 122-128. *)
Definition r_tree_from_repeats {D} (make : repeat_set -> D) (log : list (list N)) (repeats : list repeat_set) : result (list (anode D)) :=
  bind (mapM (fun r => bind (r_events_set log r) (fun events => Ok (mkRaw (make r) events))) repeats) (fun input => Ok (r_build_tree input)).

(** ActivityNarrowingKind, activity_instances.rs 35-40. *)
Inductive narrowing := DontNarrow | StayTheSame | NarrowUp | NarrowDown.
(** FromStr, activity_instances.rs 42-54; [None] is Err. *)
Definition narrowing_of (s : pystr) : option narrowing :=
  if str_eqb s (str "DontNarrow") then Some DontNarrow else if str_eqb s (str "StayTheSame") then Some StayTheSame
  else if str_eqb s (str "NarrowUp") then Some NarrowUp else if str_eqb s (str "NarrowDown") then Some NarrowDown else None.
(** ActivityInTraceFilterKind, activity_instances.rs 57-60. *)
Inductive filter_kind := NoFilter | DefaultFilter.

Section Instances.
  Context {D : Type}.
  Variable name : D -> pystr.              (* node.name *)

  (** activity_instances.rs 223-233: [group] is the last one of result; closing it appends it. *)
  Fixpoint r_split_sorted (current_length : nat) (group l : list (anode D)) : list (list (anode D)) :=
    match l with
    | [] => [group]
    | x :: r => if negb (an_length x =? current_length) then group :: r_split_sorted (an_length x) [x] r
                else r_split_sorted current_length (group ++ [x]) r
    end.
  (** split_activities_nodes_by_size, activity_instances.rs 217-243: result starts with the first activity and the loop
      goes over all of them, so the first group has it twice. *)
  Definition r_split_by_size (activities : list (anode D)) : list (list (anode D)) :=
    match sort_asc activities with
    | [] => []
    | x :: r => map (sort_name name) (r_split_sorted (an_length x) [x] (x :: r))
    end.

  (** is_suitable_activity_instance, activity_instances.rs 201-215. *)
  Definition is_suitable (min_events : nat) (kind : filter_kind) (x : instance D) : bool :=
    match kind with
    | NoFilter => true
    | DefaultFilter => if an_length (in_node x) <? min_events then false else an_length (in_node x) / 2 <? in_length x
    end.

  (** min_by on len: the first of the smallest ones, activity_instances.rs 279-280. *)
  Definition min_by_len (l : list (anode D)) : option (anode D) :=
    match l with
    | [] => None
    | x :: r => Some (fold_left (fun best y => if an_length y <? an_length best then y else best) r x)
    end.
  (** The loop over the queue, activity_instances.rs 260-271. *)
  Fixpoint r_narrow_loop (fuel : nat) (s : list N) (q found : list (anode D)) : result (list (anode D)) :=
    match fuel with
    | O => Err Diverges
    | S fuel' =>
        match q with
        | [] => Ok found
        | a :: q' => if contains_set (an_set a) s then r_narrow_loop fuel' s (q' ++ an_children a) (found ++ [a])
                     else r_narrow_loop fuel' s q' found
        end
    end.
  (** narrow_activity, activity_instances.rs 245-285. *)
  Definition r_narrow (kind : narrowing) (a : anode D) (s : list N) : result (anode D) :=
    match kind with
    | DontNarrow | StayTheSame => Ok a
    | _ => bind (r_narrow_loop (node_count a) s (an_children a) []) (fun found =>
           match found with
           | [] => Ok a
           | _ => match kind with NarrowUp => SufModel.unwrap (min_by_len found) | NarrowDown => SufModel.unwrap (min_by_len found) | _ => rpanic end
           end)
    end.

  Variables (groups : list (list (anode D))) (kind : narrowing) (min_events : nat) (fkind : filter_kind).

  (** activity_instances.rs 156-168 and 181-192: narrow, build the instance that ends before [stop], filter. *)
  Definition r_close (a : anode D) (start stop : nat) (s : list N) (found : list (instance D)) : result (list (instance D)) :=
    bind (r_narrow kind a s) (fun a' =>
    let info := mkInst a' start (stop - start) in
    Ok (if is_suitable min_events fkind info then found ++ [info] else found)).

  (** The loop over a trace and what follows it, activity_instances.rs 97-193.  [x_next] is index + 1 and [x_cur] holds
      current_activity and last_activity_start_index, as in ActModel. *)
  Fixpoint r_extract_loop (fuel : nat) (trace : list N) (st : @xstate D) : result (list (instance D)) :=
    match fuel with
    | O => Err Diverges
    | S fuel' =>
        let index := x_next st in
        match nth_error trace index with
        | None =>                                              (* lines 104-106 and 180-193 *)
            match x_cur st with
            | None => Ok (x_found st)
            | Some (a, start) => r_close a start index (x_set st) (x_found st)
            end
        | Some h =>
            match x_cur st with
            | None =>                                          (* lines 109-129 *)
                match find_in (fun a => has_event a h) groups with
                | Some a => r_extract_loop fuel' trace (mkX (S index) (Some (a, index)) (set_add [] h) (x_found st))
                | None => r_extract_loop fuel' trace (mkX (S index) None (x_set st) (x_found st))
                end
            | Some (a, start) =>
                if negb (has_event a h) then                   (* lines 131-174 *)
                  match find_wider (an_length a) (fun b => covers b (set_add (x_set st) h)) groups with
                  | Some b => r_extract_loop fuel' trace (mkX (S index) (Some (b, start)) (set_add (x_set st) h) (x_found st))
                  | None => bind (r_close a start index (x_set st) (x_found st)) (fun found =>
                            r_extract_loop fuel' trace (mkX index None [] found))
                  end
                else                                           (* lines 175-177 *)
                  r_extract_loop fuel' trace (mkX (S index) (Some (a, start)) (set_add (x_set st) h) (x_found st))
            end
        end
    end.
  (** One trace, activity_instances.rs 91-196. *)
  Definition r_extract_trace (trace : list N) : result (list (instance D)) :=
    r_extract_loop (2 * length trace + 2) trace (mkX 0 None [] []).
End Instances.

Section Log.
  Context {D : Type}.
  Variable name : D -> pystr.

  (** extract_activities_instances, activity_instances.rs 80-199.  The vector of activities is left sorted by size. *)
  Definition r_extract_instances (log : list (list N)) (activities : list (anode D)) (kind : narrowing) (min_events : nat)
    (fkind : filter_kind) : result (list (list (instance D))) :=
    mapM (r_extract_trace (r_split_by_size name activities) kind min_events fkind) log.

  (** SubTraceKind, activity_instances.rs 29-32: what process_activities_in_trace, lines 287-309, calls back with. *)
  Inductive sub_trace := Attached (x : instance D) | Unattached (start stop : nat).
  (** process_activities_in_trace, activity_instances.rs 287-309: the calls in their order; [index] starts with 0. *)
  Fixpoint r_process (index trace_length : nat) (instances : list (instance D)) : list sub_trace :=
    match instances with
    | [] => if index <? trace_length then [Unattached index trace_length] else []
    | x :: r => (if index <? in_start x then [Unattached index (in_start x)] else [])
                ++ Attached x :: r_process (in_start x + in_length x) trace_length r
    end.

  (** sort_by start_pos, stable, activity_instances.rs 468. *)
  Fixpoint insert_by_start (x : instance D) (l : list (instance D)) : list (instance D) :=
    match l with
    | [] => [x]
    | y :: r => if in_start x <=? in_start y then x :: y :: r else y :: insert_by_start x r
    end.

  Variables (activities : list (anode D)) (min_numbers : nat) (kind : narrowing) (min_events : nat) (fkind : filter_kind).

  (** handle_unattached_events, activity_instances.rs 439-462; a call for every stretch sorts the activities again,
      which changes nothing (r_split_again of RActProofs4). *)
  Definition r_handle_unattached (trace : list N) (start stop : nat) : result (list (instance D)) :=
    if stop <? start then rpanic
    else if stop - start <? min_numbers then Ok []
    else bind (SufModel.range_of trace start stop) (fun word =>
         bind (r_extract_instances [word] activities kind min_events fkind) (fun r =>
         bind (SufModel.unwrap (nth_error r 0)) (fun new =>
         Ok (map (fun x => mkInst (in_node x) (start + in_start x) (in_length x)) new)))).
  (** One trace, activity_instances.rs 437-470. *)
  Definition r_add_unattached_trace (existing : list (instance D)) (trace : list N) : result (list (instance D)) :=
    bind (loopM (fun acc v => match v with
                              | Unattached a b => bind (r_handle_unattached trace a b) (fun new => Ok (acc ++ new))
                              | Attached _ => Ok acc
                              end) (r_process 0 (length trace) existing) [])
         (fun new => Ok (fold_right insert_by_start [] (new ++ existing))).
  (** add_unattached_activities, activity_instances.rs 425-474. *)
  Definition r_add_unattached (log : list (list N)) (existing : list (list (instance D))) : result (list (list (instance D))) :=
    mapM (fun p => r_add_unattached_trace (fst p) (snd p)) (combine existing log).
End Log.
