(** The interval tree of the backend: src/rust/ficus_backend/src/utils/interval_tree/{interval,node,interval_tree}.rs.  Elements
    are integers (any totally ordered type in the code) and data natural numbers.  [ord] gives the order in which a HashSet is
    walked over, [pick] the place binary_search gives (any of the equal ones).  Loops have fuel, without it they are Diverges. *)
From Verif Require Import Py ReplayModel.

(** Interval, utils/interval_tree/interval.rs 3-12; equal if all fields are. *)
Record interval := mkIv { iv_left : Z; iv_right : Z; iv_data : option N }.
(** PartialEq of Interval is derived, utils/interval_tree/interval.rs 3. *)
Definition interval_eq_dec (a b : interval) : {a = b} + {a <> b}.
Proof. decide equality; [decide equality; apply N.eq_dec|apply Z.eq_dec|apply Z.eq_dec]. Defined.
(** contains, utils/interval_tree/interval.rs 44-46. *)
Definition iv_contains (i : interval) (point : Z) : bool := ((iv_left i <=? point) && (point <=? iv_right i))%Z.

(** Node, utils/interval_tree/node.rs 5-14. *)
Record inode := mkNode { nd_left : option nat; nd_right : option nat; nd_center : Z; nd_intervals : list interval }.
(** IntervalTree, utils/interval_tree/interval_tree.rs 7-17, without range_creator, which is handed to the search. *)
Record itree := mkTree { it_nodes : list inode; it_boundaries : list Z }.
(** ChildOrientation, utils/interval_tree/interval_tree.rs 19-22. *)
Inductive orientation := OLeft | ORight.

(** sort_by on the left ends, stable, utils/interval_tree/interval_tree.rs 49, 139, as an insertion sort. *)
Fixpoint iv_insert (x : interval) (l : list interval) : list interval :=
  match l with [] => [x] | y :: r => if (iv_left x <=? iv_left y)%Z then x :: y :: r else y :: iv_insert x r end.
(** utils/interval_tree/interval_tree.rs 49, 139. *)
Definition iv_sort (l : list interval) : list interval := fold_right iv_insert [] l.
(** sort on numbers, utils/interval_tree/interval_tree.rs 111. *)
Fixpoint z_insert (x : Z) (l : list Z) : list Z :=
  match l with [] => [x] | y :: r => if (x <=? y)%Z then x :: y :: r else y :: z_insert x r end.
(** utils/interval_tree/interval_tree.rs 111. *)
Definition z_sort (l : list Z) : list Z := fold_right z_insert [] l.

(** Writing the child of a node, utils/interval_tree/interval_tree.rs 72-77. *)
Definition set_child (o : orientation) (child : nat) (n : inode) : inode :=
  match o with
  | OLeft => mkNode (Some child) (nd_right n) (nd_center n) (nd_intervals n)
  | ORight => mkNode (nd_left n) (Some child) (nd_center n) (nd_intervals n)
  end.
(** nodes[parent] = .., utils/interval_tree/interval_tree.rs 74-75; out of bounds is a panic. *)
Definition set_at {A} (l : list A) (i : nat) (f : A -> A) : result (list A) :=
  match nth_error l i with Some x => Ok (firstn i l ++ f x :: skipn (S i) l) | None => rpanic end.

(** An entry of the queue, utils/interval_tree/interval_tree.rs 38. *)
Notation entry_t := (option (nat * orientation) * list interval)%type.

(** The loop of new, utils/interval_tree/interval_tree.rs 47-87. *)
Fixpoint it_build (fuel : nat) (queue : list entry_t) (nodes : list inode) (boundaries : list Z) : result itree :=
  match queue with
  | [] => Ok (mkTree nodes boundaries)
  | (parent_child, current) :: queue =>
      match fuel with
      | O => Err Diverges
      | S fuel =>
          let current := iv_sort current in
          match nth_error current (Nat.div2 (length current)) with
          | None => rpanic
          | Some middle =>
              let center := iv_left middle in
              let boundaries := boundaries ++ flat_map (fun i => [iv_left i; iv_right i]) current in
              let left := filter (fun i => iv_right i <? center)%Z current in
              let right := filter (fun i => negb (iv_right i <? center) && (iv_left i >? center))%Z current in
              let own := filter (fun i => negb (iv_right i <? center) && negb (iv_left i >? center))%Z current in
              let index := length nodes in
              bind (match parent_child with
                    | Some (parent, o) => set_at nodes parent (set_child o index)
                    | None => Ok nodes
                    end) (fun nodes =>
              let queue := if length left =? 0 then queue else queue ++ [(Some (index, OLeft), left)] in
              let queue := if length right =? 0 then queue else queue ++ [(Some (index, ORight), right)] in
              it_build fuel queue (nodes ++ [mkNode None None center own]) boundaries)
          end
      end
  end.
(** IntervalTree::new, utils/interval_tree/interval_tree.rs 31-94. *)
Definition it_new (fuel : nat) (intervals : list interval) : result itree := it_build fuel [(None, intervals)] [] [].

(** HashSet::insert, utils/interval_tree/interval_tree.rs 157. *)
Definition iv_add (set : list interval) (i : interval) : list interval := if in_dec interval_eq_dec i set then set else set ++ [i].

(** search_internal, utils/interval_tree/interval_tree.rs 153-172; the children are searched once for each interval of the node. *)
Fixpoint it_search (fuel : nat) (t : itree) (node_index : nat) (point : Z) (found : list interval) : result (list interval) :=
  match fuel with
  | O => Err Diverges
  | S fuel =>
      match nth_error (it_nodes t) node_index with
      | None => rpanic
      | Some node =>
          loopM (fun found i =>
            let found := if iv_contains i point then iv_add found i else found in
            bind (match nd_left node with
                  | Some child => if (point <? nd_center node)%Z then it_search fuel t child point found else Ok found
                  | None => Ok found
                  end) (fun found =>
            match nd_right node with
            | Some child => if (point >? nd_center node)%Z then it_search fuel t child point found else Ok found
            | None => Ok found
            end)) (nd_intervals node) found
      end
  end.

Section Orders.
  Variable ord : nat -> forall A : Type, list A -> list A.
  Variable pick : list Z -> Z -> nat.

  (** to_ordered_vec, utils/interval_tree/interval_tree.rs 134-142. *)
  Definition it_ordered (k : nat) (set : list interval) : list interval := iv_sort (ord k _ set).
  (** search_overlaps_for_point, utils/interval_tree/interval_tree.rs 96-101. *)
  Definition it_point (fuel : nat) (t : itree) (point : Z) : result (list interval) :=
    bind (it_search fuel t 0 point []) (fun found => Ok (it_ordered 0 found)).
  (** search_overlaps_for_interval, utils/interval_tree/interval_tree.rs 144-151; [range] is range_creator. *)
  Definition it_range (range : Z -> Z -> list Z) (fuel : nat) (t : itree) (left right : Z) : result (list interval) :=
    bind (loopM (fun found e => it_search fuel t 0 e found) (range left right) []) (fun found => Ok (it_ordered 1 found)).
  (** search_envelopes, utils/interval_tree/interval_tree.rs 103-132; gives back the tree with sorted boundaries too. *)
  Definition it_envelopes (fuel : nat) (t : itree) (left right : Z) : result (list interval * itree) :=
    if (left >=? right)%Z then Ok ([], t)
    else
      bind (it_search fuel t 0 left []) (fun found =>
      let sorted := z_sort (it_boundaries t) in
      let t := mkTree (it_nodes t) sorted in
      let from := pick sorted left in
      let until := pick sorted right in
      if (from <=? until) && (until <=? length sorted) then
        bind (loopM (fun found e => it_search fuel t 0 e found) (firstn (until - from) (skipn from sorted)) found) (fun found =>
        Ok (iv_sort (filter (fun i => (iv_left i >=? left) && (iv_right i <=? right))%Z (ord 2 _ found)), t))
      else rpanic).
End Orders.
