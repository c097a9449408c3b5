(** The suffix tree of the backend and the repeats found with it: src/rust/ficus_backend/src/utils/suffix_tree/*.rs,
    src/rust/ficus_backend/src/utils/hash_map_utils.rs 15-58 and src/rust/ficus_backend/src/features/analysis/patterns/repeats.rs.
    Event classes are the u64 hashes, as numbers.  HashMaps are lists of entries and HashSets lists without repetition;
    [ord] gives the order in which one is walked over, at each place of the program another one, which is any.  Loops carry
    a number of steps which SufProofs shows to be enough.  A panic is [rpanic].  Overflow of usize is not modelled. *)
From Verif Require Import Py ReplayModel.

(** Keys of children: Option<TElement>, utils/suffix_tree/node.rs 12. *)
Definition oeq_dec : forall a b : option N, {a = b} + {a <> b}.
Proof. decide equality. apply N.eq_dec. Defined.
(** Comparing two of them, utils/suffix_tree/suffix_tree_slice.rs 77. *)
Definition oeqb (a b : option N) : bool := if oeq_dec a b then true else false.

(** The trait SuffixTreeSlice, utils/suffix_tree/suffix_tree_slice.rs 1-9. *)
Record slice := mkSlice {
  sl_equals : nat -> nat -> bool; sl_len : nat; sl_get : nat -> option N; sl_sub : nat -> nat -> result (option (list N)) }.

(** slice[start..end], which panics outside of the slice, utils/suffix_tree/suffix_tree_slice.rs 52 and 110. *)
Definition range_of (w : list N) (s e : nat) : result (list N) :=
  if (s <=? e) && (e <=? length w) then Ok (firstn (e - s) (skipn s w)) else rpanic.

(** SingleWordSuffixTreeSlice, utils/suffix_tree/suffix_tree_slice.rs 11-54. *)
Definition single_slice (w : list N) : slice :=
  mkSlice (fun i j => if (length w <=? i) || (length w <=? j) then false else oeqb (nth_error w i) (nth_error w j))
          (length w + 1) (fun i => nth_error w i) (fun s e => bind (range_of w s e) (fun r => Ok (Some r))).

(** get_slice_info_for, utils/suffix_tree/suffix_tree_slice.rs 125-144. *)
Fixpoint mw_info (words : list (list N)) (border slice_index index : nat) : option (nat * option nat) :=
  match words with
  | [] => None
  | w :: words' =>
      let border := border + length w in
      if index <? border then Some (slice_index, Some (index - (border - length w)))
      else if index =? border then Some (slice_index, None)
      else mw_info words' (border + 1) (slice_index + 1) index
  end.
(** get of MultipleWordsSuffixTreeSlice, utils/suffix_tree/suffix_tree_slice.rs 90-96. *)
Definition mw_get (words : list (list N)) (i : nat) : option N :=
  match mw_info words 0 0 i with Some (si, Some k) => nth_error (nth si words []) k | _ => None end.
(** sub_slice of MultipleWordsSuffixTreeSlice, utils/suffix_tree/suffix_tree_slice.rs 98-118. *)
Definition mw_sub (words : list (list N)) (s e : nat) : result (option (list N)) :=
  match mw_info words 0 0 s with
  | Some (ss, Some si) =>
      match mw_info words 0 0 e with
      | Some (es, ei) =>
          if negb (ss =? es) then Ok None
          else bind (range_of (nth ss words []) si (match ei with Some x => x | None => length (nth ss words []) end)) (fun r => Ok (Some r))
      | None => Ok None
      end
  | _ => Ok None
  end.
(** MultipleWordsSuffixTreeSlice, utils/suffix_tree/suffix_tree_slice.rs 56-119. *)
Definition multi_slice (words : list (list N)) : slice :=
  mkSlice (fun i j => oeqb (mw_get words i) (mw_get words j)) (list_sum (map (@length N) words) + length words) (mw_get words) (mw_sub words).

(** Node, utils/suffix_tree/node.rs 4-13. *)
Record snode := mkSNode {
  sn_left : nat; sn_right : nat; sn_link : option nat; sn_parent : option nat; sn_children : dict (option N) nat }.
(** create_default, utils/suffix_tree/node.rs 19-27. *)
Definition sn_default : snode := mkSNode 0 0 None None [].
(** is_leaf, utils/suffix_tree/node.rs 29-31. *)
Definition is_leaf (nd : snode) : bool := match sn_children nd with [] => true | _ => false end.
(** edge_len, utils/suffix_tree/node.rs 33-35. *)
Definition elen (nd : snode) : nat := sn_right nd - sn_left nd.
(** update_child, utils/suffix_tree/node.rs 37-43. *)
Definition update_child (x : option N) (c : nat) (nd : snode) : snode :=
  mkSNode (sn_left nd) (sn_right nd) (sn_link nd) (sn_parent nd) (dset oeq_dec (sn_children nd) x c).
(** nodes[i], also nodes.get(i).unwrap(), utils/suffix_tree/suffix_tree_build.rs 73 and so on. *)
Definition node_at (nodes : list snode) (i : nat) : result snode :=
  match nth_error nodes i with Some nd => Ok nd | None => rpanic end.
(** The change of the node there, utils/suffix_tree/suffix_tree_build.rs 141-147 and so on. *)
Fixpoint upd (nodes : list snode) (i : nat) (f : snode -> snode) : list snode :=
  match nodes, i with
  | [], _ => []
  | nd :: nodes', 0 => f nd :: nodes'
  | nd :: nodes', S i' => nd :: upd nodes' i' f
  end.
(** unwrap, utils/suffix_tree/suffix_tree_build.rs 44 and so on. *)
Definition unwrap {A} (o : option A) : result A := match o with Some a => Ok a | None => rpanic end.

Section Tree.
  Variable sl : slice.

  (** go, utils/suffix_tree/suffix_tree_build.rs 70-106; a state is the number of the node, or none, and the position. *)
  Fixpoint st_go (fuel : nat) (nodes : list snode) (state : option nat * nat) (left right : nat) : result (option nat * nat) :=
    match fuel with
    | 0 => Err Diverges
    | S fuel' =>
        if left <? right then
          bind (unwrap (fst state)) (fun v =>
          bind (node_at nodes v) (fun nd =>
          if snd state =? elen nd then
            match dget oeq_dec (sn_children nd) (sl_get sl left) with
            | None => Ok (None, 0)
            | Some c => st_go fuel' nodes (Some c, 0) left right
            end
          else if negb (sl_equals sl (sn_left nd + snd state) left) then Ok (None, 0)
          else if right - left <? elen nd - snd state then Ok (Some v, snd state + (right - left))
          else st_go fuel' nodes (Some v, elen nd) (left + (elen nd - snd state)) right))
        else Ok state
    end.
  (** go with enough steps, utils/suffix_tree/suffix_tree_build.rs 70-105. *)
  Definition go (nodes : list snode) (state : option nat * nat) (left right : nat) : result (option nat * nat) :=
    st_go (2 * (right - left) + 2) nodes state left right.

  (** split, utils/suffix_tree/suffix_tree_build.rs 108-150. *)
  Definition split (nodes : list snode) (state : option nat * nat) : result (list snode * option nat) :=
    bind (unwrap (fst state)) (fun v =>
    bind (node_at nodes v) (fun nd =>
    if snd state =? elen nd then Ok (nodes, Some v)
    else if snd state =? 0 then Ok (nodes, sn_parent nd)
    else
      let index := length nodes in
      let nodes := nodes ++ [mkSNode (sn_left nd) (sn_left nd + snd state) None (sn_parent nd) []] in
      bind (unwrap (sn_parent nd)) (fun p =>
      bind (node_at nodes p) (fun _ =>
      let nodes := upd nodes p (update_child (sl_get sl (sn_left nd)) index) in
      let nodes := upd nodes index (update_child (sl_get sl (sn_left nd + snd state)) v) in
      let nodes := upd nodes v (fun nd => mkSNode (sn_left nd + snd state) (sn_right nd) (sn_link nd) (Some index) (sn_children nd)) in
      Ok (nodes, Some index))))).

  (** get_link, utils/suffix_tree/suffix_tree_build.rs 152-193. *)
  Fixpoint get_link (fuel : nat) (nodes : list snode) (v : nat) : result (list snode * nat) :=
    match fuel with
    | 0 => Err Diverges
    | S fuel' =>
        bind (node_at nodes v) (fun nd =>
        match sn_link nd with
        | Some l => Ok (nodes, l)
        | None =>
            match sn_parent nd with
            | None => Ok (nodes, 0)
            | Some p =>
                bind (get_link fuel' nodes p) (fun r =>
                let '(nodes, to) := r in
                bind (node_at nodes to) (fun tn =>
                bind (go nodes (Some to, elen tn) (sn_left nd + (if p =? 0 then 1 else 0)) (sn_right nd)) (fun next =>
                bind (split nodes next) (fun r =>
                let '(nodes, link) := r in
                let nodes := upd nodes v (fun nd => mkSNode (sn_left nd) (sn_right nd) link (sn_parent nd) (sn_children nd)) in
                bind (unwrap link) (fun l => Ok (nodes, l))))))
            end
        end)
    end.

  (** The inner loop of build_tree, utils/suffix_tree/suffix_tree_build.rs 37-66. *)
  Fixpoint build_step (fuel : nat) (nodes : list snode) (state : option nat * nat) (pos : nat) : result (list snode * (option nat * nat)) :=
    match fuel with
    | 0 => Err Diverges
    | S fuel' =>
        bind (go nodes state pos (pos + 1)) (fun next =>
        match fst next with
        | Some _ => Ok (nodes, next)
        | None =>
            bind (split nodes state) (fun r =>
            let '(nodes, mid) := r in
            bind (unwrap mid) (fun mid =>
            let leaf := length nodes in
            let nodes := nodes ++ [mkSNode pos (sl_len sl) None (Some mid) []] in
            bind (node_at nodes mid) (fun _ =>
            let nodes := upd nodes mid (update_child (sl_get sl pos) leaf) in
            bind (get_link (S (length nodes)) nodes mid) (fun r =>
            let '(nodes, l) := r in
            bind (node_at nodes l) (fun ln =>
            let state := (Some l, elen ln) in
            if mid =? 0 then Ok (nodes, state) else build_step fuel' nodes state pos)))))
        end)
    end.
  (** new and build_tree, utils/suffix_tree/suffix_tree_build.rs 14-19 and 30-68: the nodes of the tree. *)
  Definition build_tree : result (list snode) :=
    bind (loopM (fun st pos => build_step (sl_len sl + 2) (fst st) (snd st) pos) (seq 0 (sl_len sl)) ([sn_default], (Some 0, 0)))
         (fun st => Ok (fst st)).

  (** get_element_for_suffix, utils/suffix_tree/suffix_tree_patterns.rs 84-90. *)
  Definition element_before (suffix_length : nat) : option N :=
    if sl_len sl <? suffix_length + 1 then None else sl_get sl (sl_len sl - suffix_length - 1).

  (** Comparing the elements of an edge with the pattern, utils/suffix_tree/suffix_tree_patterns.rs 40-51: the index after it, or none. *)
  Fixpoint match_edge (pattern : list N) (edge : list nat) (pattern_index : nat) : result (option nat) :=
    match edge with
    | [] => Ok (Some pattern_index)
    | i :: edge' =>
        if pattern_index =? length pattern then Ok (Some pattern_index)
        else bind (unwrap (nth_error pattern pattern_index)) (fun x =>
             match sl_get sl i with
             | None => Ok None
             | Some y => if N.eqb y x then match_edge pattern edge' (pattern_index + 1) else Ok None
             end)
    end.
  (** The loop of find_patterns, utils/suffix_tree/suffix_tree_patterns.rs 27-55. *)
  Fixpoint walk (fuel : nat) (nodes : list snode) (pattern : list N) (v pattern_index suffix_length : nat) : result (option (nat * nat)) :=
    match fuel with
    | 0 => Err Diverges
    | S fuel' =>
        if pattern_index =? length pattern then Ok (Some (v, suffix_length))
        else
          bind (node_at nodes v) (fun nd =>
          bind (unwrap (nth_error pattern pattern_index)) (fun x =>
          match dget oeq_dec (sn_children nd) (Some x) with
          | None => Ok None
          | Some c =>
              bind (node_at nodes c) (fun cn =>
              bind (match_edge pattern (seq (sn_left cn) (elen cn)) pattern_index) (fun r =>
              match r with
              | None => Ok None
              | Some pattern_index => walk fuel' nodes pattern c pattern_index (suffix_length + elen cn)
              end))
          end))
    end.

  Section Ordered.
    Variable ord : nat -> forall A : Type, list A -> list A.

    (** dfs_pattern_search, utils/suffix_tree/suffix_tree_patterns.rs 67-82: the patterns which it appends. *)
    Fixpoint dfs_patterns (fuel : nat) (nodes : list snode) (v : nat) (pattern_length suffix_length : nat) : result (list (nat * nat)) :=
      match fuel with
      | 0 => Err Diverges
      | S fuel' =>
          bind (node_at nodes v) (fun nd =>
          let suffix_length := suffix_length + elen nd in
          if is_leaf nd then Ok [(sl_len sl - suffix_length, sl_len sl - suffix_length + pattern_length)]
          else bind (mapM (fun kc => dfs_patterns fuel' nodes (snd kc) pattern_length suffix_length) (ord v _ (sn_children nd)))
                    (fun l => Ok (concat l)))
      end.

    (** The order of (usize, usize), by which utils/suffix_tree/suffix_tree_patterns.rs 62 sorts. *)
    Definition pair_leb (a b : nat * nat) : bool := (fst a <? fst b) || ((fst a =? fst b) && (snd a <=? snd b)).
    (** sort, as insertion, utils/suffix_tree/suffix_tree_patterns.rs 62 and suffix_tree_repeats.rs 46. *)
    Fixpoint insert_pair (x : nat * nat) (l : list (nat * nat)) : list (nat * nat) :=
      match l with [] => [x] | y :: l' => if pair_leb x y then x :: l else y :: insert_pair x l' end.
    (** sort, utils/suffix_tree/suffix_tree_patterns.rs 62 and suffix_tree_repeats.rs 46. *)
    Definition sort_pairs (l : list (nat * nat)) : list (nat * nat) := fold_right insert_pair [] l.

    (** find_patterns, utils/suffix_tree/suffix_tree_patterns.rs 20-65. *)
    Definition find_patterns (nodes : list snode) (pattern : list N) : result (option (list (nat * nat))) :=
      bind (walk (S (length pattern)) nodes pattern 0 0 0) (fun r =>
      match r with
      | None => Ok None
      | Some (v, suffix_length) =>
          bind (node_at nodes v) (fun nd =>
          bind (dfs_patterns (S (sl_len sl)) nodes v (length pattern) (suffix_length - elen nd)) (fun l => Ok (Some (sort_pairs l))))
      end).

    (** RepeatType, utils/suffix_tree/suffix_tree_repeats.rs 9-13. *)
    Inductive repeat_type := MaximalRepeat | SuperMaximalRepeat | NearSuperMaximalRepeat.
    (** What dfs_repeats changes: nodes_to_awc, nodes_to_any_suffix_len and repeats, utils/suffix_tree/suffix_tree_repeats.rs 64-72. *)
    Record found := mkFound {
      f_awc : dict nat (dict (option N) nat); f_len : dict nat nat; f_repeats : list (nat * nat) }.
    (** map[key], which panics without the key, utils/suffix_tree/suffix_tree_repeats.rs 104 and so on. *)
    Definition dindex {K V} (eqd : forall a b : K, {a = b} + {a <> b}) (d : dict K V) (k : K) : result V := unwrap (dget eqd d k).

    (** increase_in_map_by, utils/hash_map_utils.rs 15-24. *)
    Definition increase_by (m : dict (option N) nat) (ec : option N * nat) : dict (option N) nat :=
      match dget oeq_dec m (fst ec) with
      | Some value => dset oeq_dec m (fst ec) (value + snd ec)
      | None => dset oeq_dec m (fst ec) (snd ec)
      end.
    (** compare_maps_by_keys with the unique key None, utils/hash_map_utils.rs 37-58. *)
    Definition same_keys (a b : dict (option N) nat) : bool :=
      let ok (m : dict (option N) nat) (k : option N) := match k with None => false | Some _ => dmem oeq_dec m k end in
      forallb (ok b) (dkeys a) && forallb (ok a) (dkeys b).

    (** The check of a super maximal repeat, utils/suffix_tree/suffix_tree_repeats.rs 132-147: whether no child makes it return. *)
    Fixpoint super_check (nodes : list snode) (f : found) (v : nat) (children : list (option N * nat)) : result bool :=
      match children with
      | [] => Ok true
      | (_, c) :: children' =>
          bind (node_at nodes c) (fun cn =>
          if negb (is_leaf cn) then Ok false
          else bind (dindex Nat.eq_dec (f_len f) c) (fun len =>
               match element_before len with
               | None => super_check nodes f v children'
               | Some x =>
                   bind (dindex Nat.eq_dec (f_awc f) v) (fun awc =>
                   bind (dindex oeq_dec awc (Some x)) (fun count =>
                   if negb (count =? 1) then Ok false else super_check nodes f v children'))
               end))
      end.
    (** The check of a near super maximal repeat, utils/suffix_tree/suffix_tree_repeats.rs 148-166. *)
    Fixpoint near_check (nodes : list snode) (f : found) (v : nat) (witness : bool) (children : list (option N * nat)) : result bool :=
      match children with
      | [] => Ok witness
      | (_, c) :: children' =>
          bind (node_at nodes c) (fun cn =>
          if negb (is_leaf cn) then near_check nodes f v witness children'
          else bind (dindex Nat.eq_dec (f_len f) c) (fun len =>
               match element_before len with
               | None => near_check nodes f v witness children'
               | Some x =>
                   bind (dindex Nat.eq_dec (f_awc f) v) (fun awc =>
                   bind (dindex oeq_dec awc (Some x)) (fun count =>
                   near_check nodes f v (if count =? 1 then true else witness) children'))
               end))
      end.
    (** Equality of pairs in the HashSet at utils/suffix_tree/suffix_tree_repeats.rs 182. *)
    Definition pair_eq_dec (a b : nat * nat) : {a = b} + {a <> b}.
    Proof. decide equality; apply Nat.eq_dec. Defined.
    (** HashSet::insert of a pair of usize, utils/suffix_tree/suffix_tree_repeats.rs 182. *)
    Definition insert_repeat (l : list (nat * nat)) (r : nat * nat) : list (nat * nat) := if in_dec pair_eq_dec r l then l else l ++ [r].
    (** The loops over pairs of children, utils/suffix_tree/suffix_tree_repeats.rs 169-187. *)
    Definition add_pairs (children : list nat) (suffix_length : nat) (f : found) : result found :=
      loopM (fun f first =>
        loopM (fun f second =>
          if first =? second then Ok f
          else bind (dindex Nat.eq_dec (f_awc f) first) (fun m1 =>
               bind (dindex Nat.eq_dec (f_awc f) second) (fun m2 =>
               if same_keys m1 m2 then Ok f
               else bind (dindex Nat.eq_dec (f_len f) first) (fun len =>
                    Ok (mkFound (f_awc f) (f_len f) (insert_repeat (f_repeats f) (sl_len sl - len, sl_len sl - len + suffix_length)))))))
          children f) children f.
    (** add_repeats, utils/suffix_tree/suffix_tree_repeats.rs 120-188. *)
    Definition add_repeats (ty : repeat_type) (nodes : list snode) (v : nat) (children : list nat) (suffix_length : nat) (f : found) : result found :=
      bind (node_at nodes v) (fun nd =>
      bind (match ty with
            | MaximalRepeat => Ok true
            | SuperMaximalRepeat => super_check nodes f v (ord (4 * v + 2) _ (sn_children nd))
            | NearSuperMaximalRepeat => near_check nodes f v false (ord (4 * v + 2) _ (sn_children nd))
            end) (fun go_on =>
      if go_on then add_pairs children suffix_length f else Ok f)).

    (** dfs_repeats, utils/suffix_tree/suffix_tree_repeats.rs 64-118. *)
    Fixpoint dfs_repeats (fuel : nat) (ty : repeat_type) (nodes : list snode) (v suffix_length : nat) (f : found) : result found :=
      match fuel with
      | 0 => Err Diverges
      | S fuel' =>
          bind (node_at nodes v) (fun nd =>
          let suffix_length := suffix_length + elen nd in
          if is_leaf nd then
            Ok (mkFound (dset Nat.eq_dec (f_awc f) v [(element_before suffix_length, 1)]) (dset Nat.eq_dec (f_len f) v suffix_length) (f_repeats f))
          else
            bind (loopM (fun st kc =>
                    bind (dfs_repeats fuel' ty nodes (snd kc) suffix_length (snd st)) (fun f =>
                    bind (dindex Nat.eq_dec (f_awc f) (snd kc)) (fun m =>
                    Ok (fold_left increase_by (ord (4 * v + 3) _ m) (fst st), f))))
                  (ord (4 * v) _ (sn_children nd)) ([], f)) (fun st =>
            let '(child_set, f) := st in
            let awc := dset Nat.eq_dec (f_awc f) v child_set in
            let children := map snd (ord (4 * v + 1) _ (sn_children nd)) in
            bind (match children with [] => rpanic | c :: children' => dindex Nat.eq_dec (f_len f) (fold_left Nat.min children' c) end) (fun len =>
            let f := mkFound awc (dset Nat.eq_dec (f_len f) v len) (f_repeats f) in
            if suffix_length =? 0 then Ok f else add_repeats ty nodes v children suffix_length f)))
      end.
    (** The filter of find_repeats, utils/suffix_tree/suffix_tree_repeats.rs 48-60. *)
    Fixpoint first_of_each (seen : list (list N)) (l : list (nat * nat)) : result (list (nat * nat)) :=
      match l with
      | [] => Ok []
      | r :: l' =>
          bind (sl_sub sl (fst r) (snd r)) (fun s =>
          match s with
          | None => first_of_each seen l'
          | Some w =>
              if in_dec (list_eq_dec N.eq_dec) w seen then first_of_each seen l'
              else bind (first_of_each (w :: seen) l') (fun k => Ok (r :: k))
          end)
      end.
    (** find_repeats, utils/suffix_tree/suffix_tree_repeats.rs 32-62. *)
    Definition tree_repeats (ty : repeat_type) (nodes : list snode) : result (list (nat * nat)) :=
      bind (dfs_repeats (S (sl_len sl)) ty nodes 0 0 (mkFound [] [] [])) (fun f => first_of_each [] (sort_pairs (f_repeats f))).
  End Ordered.
End Tree.

Section Repeats.
  Variable ord : nat -> forall A : Type, list A -> list A.

  (** SuffixTree::new, build_tree and the finder, as called at features/analysis/patterns/repeats.rs 51-54 and 68-73. *)
  Definition slice_repeats (ty : repeat_type) (sl : slice) : result (list (nat * nat)) :=
    bind (build_tree sl) (tree_repeats sl ord ty).
  (** SubArrayInTraceInfo as start and length, made at features/analysis/patterns/repeats.rs 26-33. *)
  Definition sub_array (r : nat * nat) : nat * nat := (fst r, snd r - fst r).
  (** find_from_all_traces, features/analysis/patterns/repeats.rs 45-56. *)
  Definition from_all_traces (ty : repeat_type) (log : list (list N)) : result (list (list (nat * nat))) :=
    mapM (fun w => bind (slice_repeats ty (single_slice w)) (fun l => Ok (map sub_array l))) log.
  (** Appending to traces_patterns[i], features/analysis/patterns/repeats.rs 88. *)
  Fixpoint push_at (l : list (list (nat * nat))) (i : nat) (r : nat * nat) : list (list (nat * nat)) :=
    match l, i with [], _ => [] | x :: l', 0 => (x ++ [r]) :: l' | x :: l', S i' => x :: push_at l' i' r end.
  (** find_from_single_merged_trace, features/analysis/patterns/repeats.rs 58-94. *)
  Definition from_merged_trace (ty : repeat_type) (log : list (list N)) : result (list (list (nat * nat))) :=
    bind (slice_repeats ty (multi_slice log)) (fun patterns =>
    bind (loopM (fun acc r =>
            bind (unwrap (mw_info log 0 0 (fst r))) (fun fi =>
            bind (unwrap (snd fi)) (fun first =>
            bind (unwrap (mw_info log 0 0 (snd r))) (fun se =>
            let second := match snd se with Some i => i | None => length (nth (fst fi) log []) end in
            Ok (push_at acc (fst fi) (first, second))))))
          patterns (repeat [] (length log))) (fun acc => Ok (map (map sub_array) acc))).
  (** find_maximal_repeats, find_super_maximal_repeats and find_near_super_maximal_repeats, features/analysis/patterns/repeats.rs
      10-43 and 96-102; [merged] is the strategy. *)
  Definition find_repeats (ty : repeat_type) (merged : bool) (log : list (list N)) : result (list (list (nat * nat))) :=
    if merged then from_merged_trace ty log else from_all_traces ty log.
End Repeats.
