(** Vocabulary for logs rewritten with activity instances. *)
From Verif Require Import Py LogModel HashModel PatternModel PatternSpec TreeModel ActModel ActSpec ActLogModel.

(** Position [j] belongs to an instance ([covered], decidable). *)
Definition covered_b (l : list inst) (j : nat) : bool := existsb (fun x => (in_start x <=? j) && (j <? in_end x)) l.
(** The instance starting at [j]. *)
Definition starting (l : list inst) (j : nat) : option inst := find (fun x => in_start x =? j) l.
(** [j] is the first position of a maximal run of uncovered positions. *)
Definition run_start (l : list inst) (j : nat) : bool := (j =? 0) || covered_b l (j - 1).

(** Nodes recorded in an event; [acts_ok]: a list of nodes is recorded, or nothing. *)
Definition acts_of (e : event) : list N := match eget e underlying_activities_key with Some (VActs ids) => ids | _ => [] end.
Definition acts_ok (e : event) : Prop := eget e underlying_activities_key = Some (VActs (acts_of e)) \/ eget e underlying_activities_key = None.

(** The event standing for an instance. *)
Definition event_of (use_hashes : bool) (es : list event) (x : inst) : event :=
  [(concept_name, VStr (if use_hashes then nd_unique (an_data (in_node x)) else nd_name (an_data (in_node x))));
   (underlying_events_key, VEvents (piece es (in_start x) (in_length x)));
   (underlying_activities_key, VActs (flat_map acts_of (piece es (in_start x) (in_length x)) ++ [nd_id (an_data (in_node x))]))].

(** What position [j] of a trace contributes to the rewritten trace. *)
Definition uncovered_part (st : strategy) (es : list event) (first : bool) (j : nat) : list event :=
  match st with
  | InsertAllEvents => match nth_error es j with Some e => [e] | None => [] end
  | InsertAsSingleEvent => if first then [[(concept_name, VStr undefined_activity)]] else []
  | _ => []
  end.
Definition at_position (use_hashes : bool) (st : strategy) (es : list event) (l : list inst) (j : nat) : list event :=
  match starting l j with
  | Some x => [event_of use_hashes es x]
  | None => if covered_b l j then [] else uncovered_part st es (run_start l j) j
  end.

(** Events below events, at any depth. *)
Inductive expands : list event -> list event -> Prop :=
| ex_nil : expands [] []
| ex_leaf e r l : eget e underlying_events_key = None -> expands r l -> expands (e :: r) (e :: l)
| ex_node e es r l1 l2 : eget e underlying_events_key = Some (VEvents es) -> expands es l1 -> expands r l2 -> expands (e :: r) (l1 ++ l2).

(** Some event at any depth has something else than events below it. *)
Inductive broken : list event -> Prop :=
| br_here es e v : In e es -> eget e underlying_events_key = Some v -> (forall es', v <> VEvents es') -> broken es
| br_deep es e es' : In e es -> eget e underlying_events_key = Some (VEvents es') -> broken es' -> broken es.

(** A maximal run of positions outside the instances. *)
Definition gap (l : list inst) (n a b : nat) : Prop :=
  a < b /\ b <= n /\ (forall j, a <= j < b -> ~ covered l j) /\
  (a = 0 \/ covered l (a - 1)) /\ (b = n \/ covered l b).

Definition shift (k : nat) (x : inst) : inst := mkInst (in_node x) (k + in_start x) (in_length x).

(** [l] is obtained from [m] by leaving elements out. *)
Inductive subseq {A} : list A -> list A -> Prop :=
| ss_nil : subseq [] []
| ss_keep x l m : subseq l m -> subseq (x :: l) (x :: m)
| ss_skip x l m : subseq l m -> subseq l (x :: m).

(** Traces of the per-activity log [nm]: one per instance of that name for which [f] gives a trace. *)
Definition named_traces (f : trace -> inst -> option trace) (nm : pystr) (pairs : list (list inst * trace)) : list trace :=
  flat_map (fun p => flat_map (fun x => if str_eqb (nd_name (an_data (in_node x))) nm then match f (snd p) x with Some t => [t] | None => [] end else []) (fst p)) pairs.

(** The events of an instance, renamed. *)
Definition renamed (g : event -> pystr) (es : list event) : list event := map (fun e => eset e concept_name (VStr (g e))) es.

(** Renaming by the extractors from level [k] on, one after the other. *)
Definition promoted_events (gs : list (event -> pystr)) (k : nat) (es : list event) : list event := fold_left (fun es g => renamed g es) (skipn k gs) es.
Definition event_names (es : list event) : list pystr := flat_map (fun e => match eget e concept_name with Some (VStr s) => [s] | _ => [] end) es.
Definition within (a b : list pystr) : bool := forallb (fun x => if in_dec str_eq_dec x b then true else false) a.
(** The trace a per-activity log gets for an instance when lower levels are promoted to level [d]:
    the renamed events, if at level [d] their classes are those of the activity's repeat set. *)
Definition promoted (l : eventlog) (d : nat) (gs : list (event -> pystr)) (t : trace) (x : inst) : option trace :=
  let k := Z.to_nat (nd_level (an_data (in_node x))) in
  let rs := nd_repeat_set (an_data (in_node x)) in
  let es := promoted_events gs k (piece (t_events t) (in_start x) (in_length x)) in
  let classes := match nth_error (l_traces l) (rs_trace_index rs) with
                 | Some rt => map (nth d gs (fun _ => [])) (piece (t_events rt) (rs_first_pos rs) (rs_length rs)) | None => [] end in
  if d <? k then None
  else if (k =? d) || (within (event_names es) classes && within classes (event_names es)) then Some (trace_of_events es) else None.
