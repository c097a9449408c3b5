(** Model of the extraction of activity instances, legacy/analysis/patterns/event_log_patterns.py
    298-414, and of the helpers of patterns/util.py 118-135.  Events are their hashes. *)
From Verif Require Import Py HashModel TreeModel.

(** ActivityInTraceInfo, patterns_models.py 58-65. *)
Record instance (D : Type) := mkInst { in_node : anode D; in_start : nat; in_length : nat }.
Arguments mkInst {D}. Arguments in_node {D}. Arguments in_start {D}. Arguments in_length {D}.

Section Extract.
  Context {D : Type}.
  Variable name : D -> pystr.              (* node.name *)
  (** ActivityNode, patterns_models.py 26-43. *)
Notation node := (anode D).

  (** node.length, patterns_models.py 39 *)
  Definition an_length (a : node) : nat := length (an_set a).
  (** event_hash in activity.set_of_events.  legacy/analysis/patterns/event_log_patterns.py 331, 344. *)
  Definition has_event (a : node) (h : N) : bool := existsb (N.eqb h) (an_set a).
  (** s.issubset(activity.set_of_events).  legacy/analysis/patterns/event_log_patterns.py 353. *)
  Definition covers (a : node) (s : list N) : bool := contains_set (an_set a) s.
  (** current_set.add(h); a set is a list here, only membership is looked at.  legacy/analysis/patterns/event_log_patterns.py 339, 346, 359, 378. *)
  Definition set_add (s : list N) (h : N) : list N := h :: s.

  (** sorted(activities_nodes, key=length), patterns/util.py 122: stable, shortest first. *)
  Fixpoint insert_asc (x : node) (l : list node) : list node :=
    match l with
    | [] => [x]
    | y :: r => if an_length x <=? an_length y then x :: y :: r else y :: insert_asc x r
    end.
  (** patterns/util.py 122. *)
Definition sort_asc (l : list node) : list node := fold_right insert_asc [] l.

  (** sorted(..., key=name), patterns/util.py 133: stable. *)
  Fixpoint insert_name (x : node) (l : list node) : list node :=
    match l with
    | [] => [x]
    | y :: r => if str_leb (name (an_data x)) (name (an_data y)) then x :: y :: r else y :: insert_name x r
    end.
  (** patterns/util.py 133. *)
Definition sort_name (l : list node) : list node := fold_right insert_name [] l.

  (** patterns/util.py 125-130: [group] is activities_sets_by_size[-1]; closing it appends it to the result. *)
  Fixpoint split_sorted (current_length : nat) (group : list node) (l : list node) : list (list node) :=
    match l with
    | [] => [group]
    | x :: r => if an_length x =? current_length then split_sorted current_length (group ++ [x]) r
                else group :: split_sorted (an_length x) [x] r
    end.
  (** patterns/util.py 118-135 _split_activity_nodes_by_size. *)
  Definition split_by_size (l : list node) : list (list node) :=
    match sort_asc l with
    | [] => []
    | x :: r => map sort_name (split_sorted (an_length x) [x] r)
    end.

  (** legacy/analysis/patterns/event_log_patterns.py 329-340: the first activity, group by group, satisfying the test. *)
  Fixpoint find_in (test : node -> bool) (groups : list (list node)) : option node :=
    match groups with
    | [] => None
    | g :: r => match find test g with Some a => Some a | None => find_in test r end
    end.
  (** legacy/analysis/patterns/event_log_patterns.py 348-360: the same, skipping empty groups and groups of smaller sets. *)
  Fixpoint find_wider (current_length : nat) (test : node -> bool) (groups : list (list node)) : option node :=
    match groups with
    | [] => None
    | g :: r =>
        match g with
        | [] => find_wider current_length test r
        | a0 :: _ => if an_length a0 <? current_length then find_wider current_length test r
                     else match find test g with Some a => Some a | None => find_wider current_length test r end
        end
    end.

  (** legacy/analysis/patterns/event_log_patterns.py 396-414 narrow_activity: the queue loop; the first queue element is taken out, so the
      loop ends when the whole subtree has been seen ([None] = out of fuel). *)
  Fixpoint narrow_loop (fuel : nat) (s : list N) (q result : list node) : option (list node) :=
    match fuel with
    | O => None
    | S fuel' =>
        match q with
        | [] => Some result
        | a :: q' => if contains_set (an_set a) s then narrow_loop fuel' s (q' ++ an_children a) (result ++ [a])
                     else narrow_loop fuel' s q' result
        end
    end.
  (** Number of nodes below and including a node; bounds the loop.  The loop is legacy/analysis/patterns/event_log_patterns.py 402-409. *)
  Fixpoint node_count (a : node) : nat := match a with ANode _ _ c => S (list_sum (map node_count c)) end.
  (** legacy/analysis/patterns/event_log_patterns.py 396-414. *)
  Definition narrow_activity (a : node) (s : list N) : option node :=
    match narrow_loop (node_count a) s (an_children a) [] with
    | None => None
    | Some result => match sort_asc result with [] => Some a | x :: _ => Some x end
    end.

  Variables (activities : list node) (should_narrow : bool) (accept : instance D -> bool).

  (** Local variables of the loop, legacy/analysis/patterns/event_log_patterns.py 315-319.  [x_next] is index + 1; [x_cur] holds
      current_activity and last_activity_start_index, which are set and reset together. *)
  Record xstate := mkX { x_next : nat; x_cur : option (node * nat); x_set : list N; x_found : list (instance D) }.

  (** legacy/analysis/patterns/event_log_patterns.py 363-371 and 381-389: narrow, build the instance ending before [stop], filter. *)
  Definition close (a : node) (start stop : nat) (s : list N) (found : list (instance D)) : option (list (instance D)) :=
    match (if should_narrow then narrow_activity a s else Some a) with
    | None => None
    | Some a' => let info := mkInst a' start (stop - start) in
                 Some (if accept info then found ++ [info] else found)
    end.

  (** legacy/analysis/patterns/event_log_patterns.py 321-391: the while loop and the code after it ([None] = out of fuel). *)
  Fixpoint extract_loop (fuel : nat) (trace : list N) (st : xstate) : option (list (instance D)) :=
    match fuel with
    | O => None
    | S fuel' =>
        let index := x_next st in
        match nth_error trace index with
        | None =>                                              (* lines 326-327 and 381-391 *)
            match x_cur st with
            | None => Some (x_found st)
            | Some (a, start) => close a start index (x_set st) (x_found st)
            end
        | Some h =>
            match x_cur st with
            | None =>                                          (* lines 330-345 *)
                match find_in (fun a => has_event a h) (split_by_size activities) with
                | Some a => extract_loop fuel' trace (mkX (S index) (Some (a, index)) (set_add [] h) (x_found st))
                | None => extract_loop fuel' trace (mkX (S index) None (x_set st) (x_found st))
                end
            | Some (a, start) =>
                if has_event a h then                          (* lines 378-379 *)
                  extract_loop fuel' trace (mkX (S index) (Some (a, start)) (set_add (x_set st) h) (x_found st))
                else
                  match find_wider (an_length a) (fun b => covers b (set_add (x_set st) h)) (split_by_size activities) with
                  | Some b => extract_loop fuel' trace (mkX (S index) (Some (b, start)) (set_add (x_set st) h) (x_found st))
                  | None =>                                    (* lines 362-376; index -= 1 *)
                      match close a start index (x_set st) (x_found st) with
                      | None => None
                      | Some found => extract_loop fuel' trace (mkX index None [] found)
                      end
                  end
            end
        end
    end.

  (** One trace, legacy/analysis/patterns/event_log_patterns.py 315-391.  Every round either advances or closes an instance. *)
  Definition extract_trace (trace : list N) : option (list (instance D)) :=
    extract_loop (2 * length trace + 2) trace (mkX 0 None [] []).

  (** legacy/analysis/patterns/event_log_patterns.py 307-393 _do_extract_activities_from_log; [None] stands for a loop that does not end. *)
  Fixpoint extract_log (traces : list (list N)) : option (list (list (instance D))) :=
    match traces with
    | [] => Some []
    | t :: r => match extract_trace t, extract_log r with
                | Some x, Some y => Some (x :: y)
                | _, _ => None
                end
    end.
End Extract.
