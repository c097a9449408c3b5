(** Vocabulary for C54: reading a picture of a net or graph. *)
From Coq Require Import Permutation.
From Verif Require Import Py XesModel BackendModel DecodeModel ResultSpec.

(** The names of the nodes of a picture and its edges (tail, head, label), in the order of drawing. *)
Definition node_names (calls : list gvcall) : list pystr :=
  flat_map (fun c => match c with GvNode name _ _ _ => [name] | GvEdge _ _ _ => [] end) calls.
Definition edges (calls : list gvcall) : list (pystr * pystr * pystr) :=
  flat_map (fun c => match c with GvEdge a b l => [(a, b, l)] | GvNode _ _ _ _ => [] end) calls.

(** The name of the node of a place or transition. *)
Definition node_name (id : Z) : pystr := show_int (signed id).
(** The arcs of a net: where from, where to, id. *)
Definition arcs_of (n : rnet) : list (Z * Z * Z) :=
  flat_map (fun t => map (fun a => (ra_place a, rt_id t, ra_id a)) (rt_in t) ++
                     map (fun a => (rt_id t, ra_place a, ra_id a)) (rt_out t)) (rn_transitions n).
(** The place has an entry in the marking. *)
Definition marked (m : option (list (Z * Z))) (id : Z) : Prop := exists l k, m = Some l /\ In (id, k) l.
(** No place has the id of a transition (ids come from one counter, ids.rs 3-7), and arcs lead to places
    of the net. *)
Definition apart (n : rnet) : Prop :=
  forall p t, In p (rn_places n) -> In t (rn_transitions n) -> fst p <> rt_id t.
Definition closed_arcs (n : rnet) : Prop :=
  forall t a, In t (rn_transitions n) -> In a (rt_in t ++ rt_out t) -> In (ra_place a) (map fst (rn_places n)).
(** The data of a transition, node or edge as text. *)
Definition text_of (o : option pystr) : pystr := match o with Some s => s | None => [] end.

(** The text at an arc under an annotation held by the frontend: its entry, or nothing. *)
Definition annotation_label (ann : option (dict Z pystr)) (id : Z) : pystr :=
  match ann with Some d => match dget Z.eq_dec d (signed id) with Some s => s | None => [] end | None => [] end.

(** [calls] is a picture of the net: one node per place and transition, of the right shape and label, and
    one edge per arc in its direction, [label] giving the text at an arc. *)
Record pictures (names : bool) (label : Z -> pystr) (n : rnet) (calls : list gvcall) : Prop := {
  pic_distinct : NoDup (node_names calls);
  pic_nodes : forall s, In s (node_names calls) <->
    exists id, (In id (map fst (rn_places n)) \/ In id (map rt_id (rn_transitions n))) /\ s = node_name id;
  pic_initial : forall id name, In (id, name) (rn_places n) -> marked (rn_initial n) id ->
    In (GvNode (node_name id) (str "<&#9679;>") (str "circle") true) calls;
  pic_final : forall id name, In (id, name) (rn_places n) -> ~ marked (rn_initial n) id -> marked (rn_final n) id ->
    In (GvNode (node_name id) (str "<&#9679;>") (str "doublecircle") true) calls;
  pic_other : forall id name, In (id, name) (rn_places n) -> ~ marked (rn_initial n) id -> ~ marked (rn_final n) id ->
    In (GvNode (node_name id) (if names then name else []) (str "circle") true) calls;
  pic_transition : forall t, In t (rn_transitions n) ->
    In (GvNode (node_name (rt_id t)) (text_of (rt_data t)) (str "box") false) calls;
  pic_arcs : Permutation (edges calls) (map (fun x => (node_name (fst (fst x)), node_name (snd (fst x)), label (snd x))) (arcs_of n))
}.

(** A graph as the backend holds it: one entry per node id. *)
Definition graph_ok (g : rgraph) : Prop := NoDup (map fst (rg_nodes g)).
