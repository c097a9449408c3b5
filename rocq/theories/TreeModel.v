(** Model of _do_build_repeat_set_tree, legacy/analysis/patterns/event_log_patterns.py 178-246.
    The mutable nodes are kept in an arena: a node is its index in the list sorted in line 198,
    "x.child_nodes.append(y)" records the link (y, x) at the end of the list of links. *)
From Verif Require Import Py PatternModel.

Section Tree.
  Context {D : Type}.                        (* name, repeat set, level: not looked at *)

  (** A node before linking: payload and set_of_events, lines 187-193 and patterns_models.py 26-43
      (the set as a duplicate free list; node.length is its length).  legacy/analysis/patterns/event_log_patterns.py 187-193. *)
  Record raw_node := mkRaw { rn_data : D; rn_set : list N }.

  (** patterns_models.py 45-46: issuperset. *)
  Definition contains_set (a b : list N) : bool := forallb (fun x => existsb (N.eqb x) a) b.

  (** sorted(..., key=length, reverse=True), legacy/analysis/patterns/event_log_patterns.py 198: stable, longest first. *)
  Fixpoint insert_desc (x : raw_node) (l : list raw_node) : list raw_node :=
    match l with
    | [] => [x]
    | y :: r => if length (rn_set y) <=? length (rn_set x) then x :: y :: r else y :: insert_desc x r
    end.
  (** legacy/analysis/patterns/event_log_patterns.py 198. *)
Definition sort_desc (l : list raw_node) : list raw_node := fold_right insert_desc [] l.

  (** legacy/analysis/patterns/event_log_patterns.py 199-211: how many leading nodes have the maximal length. *)
  Fixpoint count_leading (max_length : nat) (l : list raw_node) : nat :=
    match l with
    | [] => 0
    | x :: r => if length (rn_set x) =? max_length then S (count_leading max_length r) else 0
    end.

  (** The variables of legacy/analysis/patterns/event_log_patterns.py 199-222. *)
Record tree_state := mkTS {
    ts_links : list (nat * nat);           (* (child, parent) in the order of the appends *)
    ts_tops : list nat;                    (* top_level_nodes *)
    ts_levels : list (list nat);           (* nodes_by_level *)
    ts_length : nat                        (* current_length *)
  }.

  (** levels[-1].append(x).  legacy/analysis/patterns/event_log_patterns.py 242. *)
  Fixpoint push_last (levels : list (list nat)) (x : nat) : list (list nat) :=
    match levels with
    | [] => [[x]]                          (* not reached: nodes_by_level starts as [[]] *)
    | [l] => [l ++ [x]]
    | l :: r => l :: push_last r x
    end.

  (** legacy/analysis/patterns/event_log_patterns.py 225-233 and 236-240: first node of the given lists containing the current one. *)
  Fixpoint first_match (test : nat -> bool) (levels : list (list nat)) : option nat :=
    match levels with
    | [] => None
    | l :: r => match find test l with Some p => Some p | None => first_match test r end
    end.

  Variable nodes : list raw_node.          (* activity_nodes, sorted *)
  (** set_of_events of a node.  legacy/analysis/patterns/event_log_patterns.py 227, 237. *)
  Definition set_at (i : nat) : list N := match nth_error nodes i with Some x => rn_set x | None => [] end.

  (** legacy/analysis/patterns/event_log_patterns.py 218-244: one iteration.  The identity test "!= current_activity_node" is always true:
      the current node is in no list yet. *)
  Definition tree_step (st : tree_state) (i : nat) : tree_state :=
    let '(levels, len) := if length (set_at i) <? ts_length st
                          then (ts_levels st ++ [[]], length (set_at i)) else (ts_levels st, ts_length st) in
    let test := fun p => contains_set (set_at p) (set_at i) in
    let found := match first_match test (rev levels) with
                 | Some p => Some p
                 | None => find test (ts_tops st)
                 end in
    match found with
    | Some p => mkTS (ts_links st ++ [(i, p)]) (ts_tops st) (push_last levels i) len
    | None => mkTS (ts_links st) (ts_tops st ++ [i]) (push_last levels i) len
    end.

  (** legacy/analysis/patterns/event_log_patterns.py 195-246 on the sorted nodes: links and top level nodes. *)
  Definition build_links : list (nat * nat) * list nat :=
    match nodes with
    | [] => ([], [])
    | x :: _ =>
        let k := count_leading (length (rn_set x)) nodes in
        let top := seq 0 k in
        if k =? length nodes then ([], top)
        else let st := fold_left tree_step (range k (length nodes)) (mkTS [] top [[]] (length (set_at k))) in
             (ts_links st, ts_tops st)
    end.
End Tree.
Arguments raw_node D : clear implicits.

(** ActivityNode with its children (common_models.py 4-7, patterns_models.py 26-43). *)
Inductive anode (D : Type) : Type := ANode (data : D) (events : list N) (children : list (anode D)).
Arguments ANode {D} data events children.
(** node.name and the other attributes of patterns_models.py 34-43. *)
Definition an_data {D} (a : anode D) : D := let (d, _, _) := a in d.
(** node.set_of_events, patterns_models.py 38. *)
Definition an_set {D} (a : anode D) : list N := let (_, s, _) := a in s.
(** node.child_nodes, common_models.py 7. *)
Definition an_children {D} (a : anode D) : list (anode D) := let (_, _, c) := a in c.

(** The object graph as a tree: children are later in the list, so [fuel] = number of nodes is
    enough.  legacy/analysis/patterns/event_log_patterns.py 228, 238. *)
Fixpoint reify {D} (nodes : list (raw_node D)) (links : list (nat * nat)) (fuel i : nat) : option (anode D) :=
  match fuel with
  | O => None
  | S fuel' =>
      match nth_error nodes i with
      | None => None
      | Some x =>
          Some (ANode (rn_data x) (rn_set x)
                  (flat_map (fun l => if snd l =? i then match reify nodes links fuel' (fst l) with Some a => [a] | None => [] end else []) links))
      end
  end.

(** legacy/analysis/patterns/event_log_patterns.py 178-246. *)
Definition build_repeat_set_tree {D} (input : list (raw_node D)) : list (anode D) :=
  let nodes := sort_desc input in
  let '(links, tops) := build_links nodes in
  flat_map (fun i => match reify nodes links (length nodes) i with Some a => [a] | None => [] end) tops.

(** legacy/analysis/patterns/event_log_patterns.py 183-185 extract_set_events (the set as a strictly increasing list). *)
Definition extract_set_events (traces : list (list N)) (r : repeat_set) : result (list N) :=
  match nth_error traces (rs_trace_index r) with
  | Some trace => Ok (sorted_set (slice trace (rs_first_pos r) (rs_length r)))
  | None => Err IndexError
  end.

(** legacy/analysis/patterns/event_log_patterns.py 178-246 from the repeat sets on; [make] builds what does not depend on the linking: the
    name (activity_names_creator), the repeat set, the extractor and the level, lines 187-193. *)
Definition do_build_repeat_set_tree {D} (make : repeat_set -> D) (traces : list (list N)) (rsets : list repeat_set) : result (list (anode D)) :=
  bind (mapM (fun r => bind (extract_set_events traces r) (fun events => Ok (mkRaw (make r) events))) rsets)
       (fun input => Ok (build_repeat_set_tree input)).
