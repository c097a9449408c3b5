(** Model of legacy/analysis/event_log_info.py 7-122.  Only names matter here, so a log is the
    list of its traces' name sequences.  Simplification: every event has a str concept:name. *)
From Verif Require Import Py.

(** The log as its event[concept_name], legacy/analysis/event_log_info.py 48-51. *)
Definition names_log := list (list pystr).

(** [x in s] for a set of str, legacy/analysis/event_log_info.py 52, 106, 110. *)
Definition str_mem (x : pystr) (l : list pystr) : bool := existsb (str_eqb x) l.

(** "ignored_events is not None and current_name in ignored_events", legacy/analysis/event_log_info.py 52. *)
Definition is_ignored (ign : option (list pystr)) (n : pystr) : bool :=
  match ign with None => false | Some l => str_mem n l end.

(** Equality of the tuples used as keys, legacy/analysis/event_log_info.py 45. *)
Definition pair_eq_dec : forall a b : pystr * pystr, {a = b} + {a <> b}.
Proof. intros [a1 a2] [b1 b2]. destruct (str_eq_dec a1 b1), (str_eq_dec a2 b2); (left; congruence) || (right; congruence). Defined.

(** pairs and events_count, legacy/analysis/event_log_info.py 38-39. *)
Record counts := mkCounts { c_pairs : dict (pystr * pystr) nat; c_events : dict pystr nat }.

(** legacy/analysis/event_log_info.py 41-42. *)
Definition update_event_count (c : counts) (n : pystr) : counts :=
  mkCounts (c_pairs c) (increase_in_int_map str_eq_dec (c_events c) n).
(** legacy/analysis/event_log_info.py 44-46. *)
Definition update_pairs_count (c : counts) (a b : pystr) : counts :=
  mkCounts (increase_in_int_map pair_eq_dec (c_pairs c) (a, b)) (c_events c).

(** legacy/analysis/event_log_info.py 49-70: the loop over one trace; [prev] is the name of prev_event. *)
Fixpoint info_trace (ign : option (list pystr)) (fake : bool) (t : list pystr)
  (prev : option pystr) (c : counts) : counts :=
  match t with
  | [] => match prev with
          | Some p => if fake then update_pairs_count c p fake_end_name else c
          | None => c
          end
  | n :: t' =>
      if is_ignored ign n then info_trace ign fake t' prev c
      else
        let c1 := update_event_count c n in
        match prev with
        | None => info_trace ign fake t' (Some n)
                    (if fake then update_pairs_count c1 fake_start_name n else c1)
        | Some p => info_trace ign fake t' (Some n) (update_pairs_count c1 p n)
        end
  end.

(** legacy/analysis/event_log_info.py 7-22: DirectlyFollowsGraph.__init__ over the keys of pairs. *)
Record dfg := mkDfg {
  d_pairs : dict (pystr * pystr) nat;
  d_followed : dict pystr (dict pystr nat);
  d_single : list pystr      (* the set events_with_single_follower *)
}.

(** s.add(x), legacy/analysis/event_log_info.py 22, 113, 116. *)
Definition set_add (s : list pystr) (x : pystr) : list pystr := if str_mem x s then s else s ++ [x].
(** s.remove(x), legacy/analysis/event_log_info.py 16, 111. *)
Definition set_remove (s : list pystr) (x : pystr) : list pystr := filter (fun y => negb (str_eqb x y)) s.

(** One round of the loop, legacy/analysis/event_log_info.py 13-22. *)
Definition dfg_step (g : dict pystr (dict pystr nat) * list pystr) (kv : (pystr * pystr) * nat) :=
  let '(followed, single) := g in
  let '((first, second), v) := kv in      (* v = pairs[(first, second)] *)
  match dget str_eq_dec followed first with
  | Some m =>
      let single' := if str_mem first single then set_remove single first else single in
      if dmem str_eq_dec m second then (followed, single')
      else (dset str_eq_dec followed first (dset str_eq_dec m second v), single')
  | None => (dset str_eq_dec followed first [(second, v)], set_add single first)
  end.

(** DirectlyFollowsGraph.__init__, legacy/analysis/event_log_info.py 8-22. *)
Definition make_dfg (pairs : dict (pystr * pystr) nat) : dfg :=
  let '(f, s) := fold_left dfg_step pairs ([], []) in mkDfg pairs f s.

(** LogInformation, legacy/analysis/event_log_info.py 25-28. *)
Record log_information := mkInfo { li_dfg : dfg; li_events_count : dict pystr nat }.

(** legacy/analysis/event_log_info.py 35-72. *)
Definition create_log_information (log : names_log) (ign : option (list pystr)) (fake : bool)
  : log_information :=
  let c := fold_left (fun c t => info_trace ign fake t None c) log (mkCounts [] []) in
  mkInfo (make_dfg (c_pairs c)) (c_events c).

(** legacy/analysis/event_log_info.py 31-32. *)
Definition create_dfg (log : names_log) : dfg := li_dfg (create_log_information log None false).

(** TraceCounts, legacy/analysis/event_log_info.py 75-78. *)
Record trace_counts := mkTC { tc_counts : dict pystr nat; tc_overall : nat }.
(** legacy/analysis/event_log_info.py 81-90. *)
Definition calculate_events_in_each_trace (log : names_log) : list trace_counts :=
  map (fun t => mkTC (fold_left (increase_in_int_map str_eq_dec) t []) (length t)) log.

(** legacy/analysis/event_log_info.py 99-118; events are objects [E] with a name, the sets are kept as lists. *)
Section FindNames.
  Context {E : Type}.
  Variable nm : E -> pystr.
  Variable predicate : E -> bool.

  (** One event, legacy/analysis/event_log_info.py 105-116. *)
Definition find_step (st : list pystr * list pystr) (e : E) : list pystr * list pystr :=
    let '(not_hold, hold) := st in
    if str_mem (nm e) not_hold then st
    else if negb (predicate e) then
      (set_add not_hold (nm e), if str_mem (nm e) hold then set_remove hold (nm e) else hold)
    else (not_hold, set_add hold (nm e)).

  (** legacy/analysis/event_log_info.py 99-118. *)
Definition find_all_events_names (log : list (list E)) : list pystr :=
    snd (fold_left (fun st t => fold_left find_step t st) log ([], [])).
End FindNames.

(** legacy/analysis/event_log_info.py 121-122. *)
Definition calculate_events_count {E} (log : list (list E)) : nat := list_sum (map (@length E) log).
