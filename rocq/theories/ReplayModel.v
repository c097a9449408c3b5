(** Petri nets of the backend, replay of a log and annotations:
    src/rust/ficus_backend/src/features/discovery/petri_net/{arc,transition,marking,petri_net,replay,annotations}.rs and
    src/rust/ficus_backend/src/pipelines/annotations_parts.rs.  A log is the list of the names of its events.  The
    transitions of a net are listed in the order in which the HashMap of the net gives them, which is any.  The data
    of transitions and arcs, and the number of tokens of an arc, which always is 1 (arc.rs 17), are left out.  A panic
    is [Err AssertionErr] (subtraction below zero panics in a debug build; other builds wrap around); overflow
    of a number of tokens is not modelled. *)
From Coq Require Import QArith.
From Verif Require Import Py InfoModel.
Open Scope nat_scope.

(** Arc, petri_net/arc.rs 4-9. *)
Record parc := mkArc { arc_id : N; arc_place : N }.
(** Transition, petri_net/transition.rs 6-16. *)
Record ptrans := mkTrans { tr_id : N; tr_name : pystr; tr_silent : bool; tr_in : list parc; tr_out : list parc }.
(** A marking: HashMap from places to tokens, petri_net/replay.rs 9, and Vec of SingleMarking, marking.rs 8-10, 25-28. *)
Definition pmarking := dict N nat.
(** PetriNet, petri_net/petri_net.rs 26-35, without places_to_transitions. *)
Record pnet := mkNet { n_places : dict N pystr; n_trans : list ptrans; n_initial : option pmarking; n_final : option pmarking }.

(** A panic, petri_net/replay.rs 55. *)
Definition rpanic {A} : result A := Err AssertionErr.

(** ReplayState, petri_net/replay.rs 8-11. *)
Record rstate := mkState { rs_marking : pmarking; rs_fired : list N }.

(** ReplayState::new, petri_net/replay.rs 27-36: collecting into a HashMap, the last entry of a place stays. *)
Definition rstate_new (initial : pmarking) : rstate :=
  mkState (fold_left (fun d kv => dset N.eq_dec d (fst kv) (snd kv)) initial []) [].

(** petri_net/replay.rs 43-49. *)
Definition can_fire (m : pmarking) (t : ptrans) : bool := forallb (fun a => dmem N.eq_dec m (arc_place a)) (tr_in t).
(** petri_net/replay.rs 53-62: indexing a missing place is a panic. *)
Fixpoint consume (arcs : list parc) (m : pmarking) : result pmarking :=
  match arcs with
  | [] => Ok m
  | a :: r =>
      match dget N.eq_dec m (arc_place a) with
      | None => rpanic
      | Some 0 => rpanic
      | Some (S 0) => consume r (ddel N.eq_dec m (arc_place a))
      | Some (S c) => consume r (dset N.eq_dec m (arc_place a) c)
      end
  end.
(** petri_net/replay.rs 64-71. *)
Fixpoint produce (arcs : list parc) (m : pmarking) : pmarking :=
  match arcs with
  | [] => m
  | a :: r =>
      match dget N.eq_dec m (arc_place a) with
      | Some c => produce r (dset N.eq_dec m (arc_place a) (c + 1))
      | None => produce r (dset N.eq_dec m (arc_place a) 1)
      end
  end.

(** find_transitions_to_fire, petri_net/replay.rs 84-99. *)
Definition find_transitions_to_fire (net : pnet) (symbol : pystr) : list ptrans :=
  filter (fun t => str_eqb (tr_name t) symbol) (n_trans net) ++ filter tr_silent (n_trans net).
(** The loop over the candidates, petri_net/replay.rs 42-79. *)
Fixpoint fire_candidates (s : rstate) (candidates : list ptrans) : result (list (bool * rstate)) :=
  match candidates with
  | [] => Ok []
  | t :: r =>
      if can_fire (rs_marking s) t then
        bind (consume (tr_in t) (rs_marking s)) (fun m =>
        bind (fire_candidates s r) (fun new_states =>
        Ok ((negb (tr_silent t), mkState (produce (tr_out t) m) (rs_fired s ++ [tr_id t])) :: new_states)))
      else fire_candidates s r
  end.
(** ReplayState::handle_transition, petri_net/replay.rs 38-82; it always returns Some. *)
Definition handle_transition (s : rstate) (net : pnet) (symbol : pystr) : result (list (bool * rstate)) :=
  fire_candidates s (find_transitions_to_fire net symbol).

(** The loop over the stack, petri_net/replay.rs 113-137; the back of the VecDeque is the head of the list. *)
Fixpoint replay_loop (fuel : nat) (net : pnet) (events : list pystr) (stack : list (nat * rstate)) : result (option rstate) :=
  match fuel with
  | 0 => Err Diverges
  | S fuel' =>
      match stack with
      | [] => Ok None
      | (index, s) :: rest =>
          match nth_error events index with
          | None => Ok (Some s)
          | Some symbol =>
              bind (handle_transition s net symbol) (fun new_states =>
              replay_loop fuel' net events
                (rev (map (fun ns : bool * rstate => (index + (if fst ns then 1 else 0), snd ns)) new_states) ++ rest))
          end
      end
  end.
(** replay_petri_net, petri_net/replay.rs 102-141. *)
Definition replay_petri_net (fuel : nat) (log : names_log) (net : pnet) : result (option (list (option rstate))) :=
  match log, n_initial net with
  | [], _ => Ok (Some [])
  | _, None => Ok None
  | _, Some initial =>
      bind (mapM (fun events => replay_loop fuel net events [(0, rstate_new initial)]) log) (fun r => Ok (Some r))
  end.

(** net.transition(id), petri_net/petri_net.rs 113-115: unwrap. *)
Definition net_transition (net : pnet) (id : N) : result ptrans :=
  match find (fun t => N.eqb (tr_id t) id) (n_trans net) with Some t => Ok t | None => rpanic end.
(** petri_net/annotations.rs 24-33 for one fired transition. *)
Definition count_fired (net : pnet) (fired_arcs : dict N nat) (id : N) : result (dict N nat) :=
  bind (net_transition net id) (fun t =>
  Ok (fold_left (increase_in_int_map N.eq_dec) (map arc_id (tr_in t) ++ map arc_id (tr_out t)) fired_arcs)).
(** petri_net/annotations.rs 18-35: the loop over the states. *)
Fixpoint count_states (net : pnet) (terminate : bool) (states : list (option rstate)) (fired_arcs : dict N nat)
  : result (option (dict N nat)) :=
  match states with
  | [] => Ok (Some fired_arcs)
  | None :: r => if terminate then Ok None else count_states net terminate r fired_arcs
  | Some s :: r => bind (loopM (count_fired net) (rs_fired s) fired_arcs) (fun d => count_states net terminate r d)
  end.
(** annotate_with_counts, petri_net/annotations.rs 7-38. *)
Definition annotate_with_counts (fuel : nat) (log : names_log) (net : pnet) (terminate : bool) : result (option (dict N nat)) :=
  bind (replay_petri_net fuel log net) (fun states =>
  match states with None => Ok None | Some states => count_states net terminate states [] end).
(** annotate_with_frequencies, petri_net/annotations.rs 44-58.  Simplification: exact quotients; x / 0 does not occur
    because the sum is 0 only without entries. *)
Definition annotate_with_frequencies (fuel : nat) (log : names_log) (net : pnet) (terminate : bool) : result (option (dict N Q)) :=
  bind (annotate_with_counts fuel log net terminate) (fun counts =>
  match counts with
  | None => Ok None
  | Some d => let sum := list_sum (dvalues d) in
      Ok (Some (map (fun kv => (fst kv, inject_Z (Z.of_nat (snd kv)) / inject_Z (Z.of_nat sum))%Q) d))
  end).
(** annotate_with_trace_frequency, petri_net/annotations.rs 60-72. *)
Definition annotate_with_trace_frequency (fuel : nat) (log : names_log) (net : pnet) (terminate : bool) : result (option (dict N Q)) :=
  bind (annotate_with_counts fuel log net terminate) (fun counts =>
  match counts with
  | None => Ok None
  | Some d => Ok (Some (map (fun kv => (fst kv, inject_Z (Z.of_nat (snd kv)) / inject_Z (Z.of_nat (length log)))%Q) d))
  end).
(** annotate_petri_net, pipelines/annotations_parts.rs 27-46: no annotation is an error of the part. *)
Definition annotate_part {A} (annotation : result (option A)) : result A :=
  bind annotation (fun a => match a with Some a => Ok a | None => Err UserError end).

(** Transition::add_incoming_arc, petri_net/transition.rs 53-55; [arc] is the next number of the counter of ids.rs 3-7,
    which everything made shares. *)
Definition add_in (place : N) (arc : N) (t : ptrans) : ptrans :=
  mkTrans (tr_id t) (tr_name t) (tr_silent t) (tr_in t ++ [mkArc arc place]) (tr_out t).
(** Transition::add_outgoing_arc, petri_net/transition.rs 57-59. *)
Definition add_out (place : N) (arc : N) (t : ptrans) : ptrans :=
  mkTrans (tr_id t) (tr_name t) (tr_silent t) (tr_in t) (tr_out t ++ [mkArc arc place]).
(** A change of the transition with the id; get_mut(..).unwrap(), petri_net/petri_net.rs 76-79, 96-99. *)
Definition update_transition (net : pnet) (id : N) (f : ptrans -> ptrans) : result pnet :=
  match net_transition net id with
  | Ok _ => Ok (mkNet (n_places net) (map (fun t => if N.eqb (tr_id t) id then f t else t) (n_trans net)) (n_initial net) (n_final net))
  | Err e => Err e
  end.
(** connect_place_to_transition, petri_net/petri_net.rs 75-87; the counter goes up by one. *)
Definition connect_place_to_transition (nn : pnet * N) (place transition : N) : result (pnet * N) :=
  bind (update_transition (fst nn) transition (add_in place (snd nn))) (fun net => Ok (net, N.succ (snd nn))).
(** connect_transition_to_place, petri_net/petri_net.rs 95-107. *)
Definition connect_transition_to_place (nn : pnet * N) (transition place : N) : result (pnet * N) :=
  bind (update_transition (fst nn) transition (add_out place (snd nn))) (fun net => Ok (net, N.succ (snd nn))).
(** add_place(Place::with_name(..)), petri_net/petri_net.rs 51-55 and place.rs 22-28. *)
Definition add_place (nn : pnet * N) (name : pystr) : pnet * N * N :=
  let '(net, next) := nn in
  (mkNet (dset N.eq_dec (n_places net) next name) (n_trans net) (n_initial net) (n_final net), N.succ next, next).

(** find_transition_by_name, petri_net/petri_net.rs 143-151: the first one in the order of the map. *)
Definition find_transition_by_name (net : pnet) (name : pystr) : option ptrans :=
  find (fun t => str_eqb (tr_name t) name) (n_trans net).
(** HashSet::insert, petri_net/marking.rs 57, 61. *)
Definition hset_insert (s : list N) (x : N) : list N := if in_dec N.eq_dec x s then s else s ++ [x].
(** The ids collected by the loop over the traces, petri_net/marking.rs 47-63; first().unwrap() of an empty trace. *)
Definition ends_of_trace (net : pnet) (ids : list N * list N) (t : list pystr) : result (list N * list N) :=
  match t with
  | [] => rpanic
  | first :: _ =>
      let add := fun s n => match find_transition_by_name net n with Some t => hset_insert s (tr_id t) | None => s end in
      Ok (add (fst ids) first, add (snd ids) (last t first))
  end.
(** ensure_initial_marking, petri_net/marking.rs 43-77; [order] is the order in which a HashSet gives its elements. *)
Definition ensure_initial_marking (order : list N -> list N) (log : names_log) (net : pnet) (next : N) : result (pnet * N) :=
  bind (loopM (ends_of_trace net) log ([], [])) (fun '(starts, ends) =>
  let '(net1, next1, start_place) := add_place (net, next) (str "Start") in
  let '(net2, next2, end_place) := add_place (net1, next1) (str "End") in
  bind (loopM (fun nn id => connect_place_to_transition nn start_place id) (order starts) (net2, next2)) (fun nn =>
  bind (loopM (fun nn id => connect_transition_to_place nn id end_place) (order ends) nn) (fun nn =>
  Ok (mkNet (n_places (fst nn)) (n_trans (fst nn)) (Some [(start_place, 1)]) (n_final (fst nn)), snd nn)))).
