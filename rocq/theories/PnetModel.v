(** A Petri net of the backend as it is built and asked: src/rust/ficus_backend/src/features/discovery/petri_net/petri_net.rs, with the
    table places_to_transitions.  HashMaps are dictionaries by id; where all values are gone over their order is any ([ord]).  Ids are taken
    from one counter (ids.rs 3-7), as all code which builds nets does.  Markings and data are left out.  A panic is [rpanic]. *)
From Verif Require Import Py InfoModel ReplayModel.

(** PetriNet, petri_net.rs 26-35, and the counter of ids; the table has incoming_transitions and outgoing_transitions, 11-14. *)
Record bnet := mkBNet { bn_places : dict N pystr; bn_trans : dict N ptrans; bn_table : dict N (list N * list N); bn_next : N }.
(** empty, 41-49. *)
Definition bnet_empty (next : N) : bnet := mkBNet [] [] [] next.
(** init_places_transitions, 89-93, and the table of the place after it. *)
Definition table_of (table : dict N (list N * list N)) (place : N) : list N * list N :=
  match dget N.eq_dec table place with Some e => e | None => ([], []) end.
(** The calls which change a net: add_place(Place::with_name(..)), add_transition(Transition::empty(..)), connect_place_to_transition,
    connect_transition_to_place, delete_transition; petri_net.rs 51-55, 69-73, 75-87, 95-107, 65-67. *)
Inductive bcall := BPlace (name : pystr) | BTransition (name : pystr) (silent : bool) | BToTransition (place transition : N) | BToPlace (transition place : N) | BDelete (transition : N).
(** One call, petri_net.rs 51-107. *)
Definition bcall_step (net : bnet) (c : bcall) : result bnet :=
  let next := bn_next net in
  match c with
  | BPlace name => Ok (mkBNet (dset N.eq_dec (bn_places net) next name) (bn_trans net) (bn_table net) (N.succ next))
  | BTransition name silent => Ok (mkBNet (bn_places net) (dset N.eq_dec (bn_trans net) next (mkTrans next name silent [] [])) (bn_table net) (N.succ next))
  | BToTransition place id => match dget N.eq_dec (bn_trans net) id with
      | None => rpanic
      | Some t => let '(incoming, outgoing) := table_of (bn_table net) place in
          Ok (mkBNet (bn_places net) (dset N.eq_dec (bn_trans net) id (add_in place next t)) (dset N.eq_dec (bn_table net) place (incoming, outgoing ++ [id])) (N.succ next))
      end
  | BToPlace id place => match dget N.eq_dec (bn_trans net) id with
      | None => rpanic
      | Some t => let '(incoming, outgoing) := table_of (bn_table net) place in
          Ok (mkBNet (bn_places net) (dset N.eq_dec (bn_trans net) id (add_out place next t)) (dset N.eq_dec (bn_table net) place (incoming ++ [id], outgoing)) (N.succ next))
      end
  | BDelete id => Ok (mkBNet (bn_places net) (ddel N.eq_dec (bn_trans net) id) (bn_table net) next)
  end.
(** Calls one after the other, petri_net.rs 51-107. *)
Fixpoint bcalls (net : bnet) (l : list bcall) : result bnet := match l with [] => Ok net | c :: r => bind (bcall_step net c) (fun net => bcalls net r) end.
(** map_transitions, 194-196. *)
Definition map_transitions (net : bnet) (ids : list N) : result (list ptrans) :=
  mapM (fun id => match dget N.eq_dec (bn_trans net) id with Some t => Ok t | None => rpanic end) ids.
(** get_place_transitions, 190-192. *)
Definition get_place_transitions (net : bnet) (place : N) : result (list N * list N) :=
  match dget N.eq_dec (bn_table net) place with Some e => Ok e | None => rpanic end.
(** get_incoming_transitions, 186-188. *)
Definition get_incoming_transitions (net : bnet) (place : N) : result (list ptrans) :=
  bind (get_place_transitions net place) (fun e => map_transitions net (fst e)).
(** get_outgoing_transitions, 198-200. *)
Definition get_outgoing_transitions (net : bnet) (place : N) : result (list ptrans) :=
  bind (get_place_transitions net place) (fun e => map_transitions net (snd e)).
(** The loop of arc, 168-184. *)
Fixpoint arc_in (id : N) (l : list ptrans) : option (parc * ptrans) :=
  match l with
  | [] => None
  | t :: r => match find (fun a => N.eqb (arc_id a) id) (tr_out t ++ tr_in t) with Some a => Some (a, t) | None => arc_in id r end
  end.
Section Order.
  Variable ord : nat -> forall A : Type, list A -> list A.
  (** arc, 168-184. *)
  Definition find_arc (net : bnet) (id : N) : option (parc * ptrans) := arc_in id (ord 0 _ (dvalues (bn_trans net))).
  (** find_all_transitions_by_name, 153-166. *)
  Definition find_all_transitions_by_name (net : bnet) (name : pystr) : option (list ptrans) :=
    match filter (fun t => str_eqb (tr_name t) name) (ord 1 _ (dvalues (bn_trans net))) with [] => None | l => Some l end.
End Order.
