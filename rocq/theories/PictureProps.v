(** C54: pictures of nets and graphs. *)
From Coq Require Import Permutation.
From Verif Require Import Py XesModel WireModel ConstModel ClientModel BackendModel DecodeModel
  ResultSpec ResultProofs ResultProps PictureSpec PictureProofs.

(** ViewPetriNet2: the picture of a net sent by the backend shows every place, transition and arc once,
    whatever else is in the message. *)
Theorem C54_petri_net :
  forall float_repr names ann show n values g, net_ok n -> apart n ->
  value_grpc (str "petri_net") (VNet n) = Some g -> dget str_eq_dec values (str "petri_net") = Some g ->
  exists calls, leaf_show float_repr (mkOpts names ann show) LViewPetriNet values = Ok (ShCalls calls) /\
  pictures names (annotation_label ann) n calls.
Proof. exact view_net_proof. Qed.
Print Assumptions C54_petri_net.

(** The annotation parts: the text at an arc is its count or frequency, and nothing for an arc without
    one. *)
Theorem C54_annotated_net :
  forall float_repr names ann show terminate n values g, net_ok n -> apart n ->
  value_grpc (str "petri_net") (VNet n) = Some g -> dget str_eq_dec values (str "petri_net") = Some g ->
  (forall counts a, NoDup (map fst counts) -> (forall x, In x counts -> word (fst x) /\ word (snd x)) ->
     value_grpc (str "petri_net_count_annotation") (VCounts counts) = Some a ->
     dget str_eq_dec values (str "petri_net_count_annotation") = Some a ->
     exists calls label, leaf_show float_repr (mkOpts names ann show) (LAnnotate ACount terminate) values = Ok (ShCalls calls) /\
     pictures names label n calls /\
     forall i, word i -> (forall c, In (i, c) counts -> label i = show_int (signed c)) /\ (~ In i (map fst counts) -> label i = [])) /\
  (forall k key freqs a, (k = AFrequency /\ key = str "petri_net_frequency_annotation" \/
                          k = ATraceFrequency /\ key = str "petri_net_trace_frequency_annotation") ->
     NoDup (map fst freqs) -> (forall x, In x freqs -> word (fst x)) ->
     value_grpc key (VFreqs freqs) = Some a -> dget str_eq_dec values key = Some a ->
     exists calls label, leaf_show float_repr (mkOpts names ann show) (LAnnotate k terminate) values = Ok (ShCalls calls) /\
     pictures names label n calls /\
     forall i, word i -> (forall f, In (i, f) freqs -> label i = float_repr (f32 f)) /\ (~ In i (map fst freqs) -> label i = [])).
Proof. exact annotated_net_proof. Qed.
Print Assumptions C54_annotated_net.

(** In a picture of a net whose arcs lead to its places, every edge joins the node of a place and the node
    of a transition. *)
Theorem C54_edges_join_nodes :
  forall names label n calls, net_ok n -> closed_arcs n -> pictures names label n calls ->
  forall tail head l, In (tail, head, l) (edges calls) ->
  exists p t, In p (map fst (rn_places n)) /\ In t (map rt_id (rn_transitions n)) /\
  (tail = node_name p /\ head = node_name t \/ tail = node_name t /\ head = node_name p).
Proof. exact edges_join_proof. Qed.
Print Assumptions C54_edges_join_nodes.

(** Nets with the same picture, in whatever order it was drawn, have the same places, the same transitions
    with the same labels, and as many arcs between the same ends; without the names of places also the same
    places in the initial marking, and the same in the final marking unless they are in the initial one. *)
Theorem C54_same_picture :
  forall names label label' n m calls calls', net_ok n -> net_ok m ->
  pictures names label n calls -> pictures names label' m calls' -> Permutation calls calls' ->
  (forall id, In id (map fst (rn_places n)) <-> In id (map fst (rn_places m))) /\
  (forall id s, (exists t, In t (rn_transitions n) /\ rt_id t = id /\ text_of (rt_data t) = s) <->
                (exists t, In t (rn_transitions m) /\ rt_id t = id /\ text_of (rt_data t) = s)) /\
  Permutation (map (fun x => (fst (fst x), snd (fst x))) (arcs_of n)) (map (fun x => (fst (fst x), snd (fst x))) (arcs_of m)) /\
  (names = false -> forall id, In id (map fst (rn_places n)) ->
     (marked (rn_initial n) id <-> marked (rn_initial m) id) /\
     (~ marked (rn_initial n) id -> (marked (rn_final n) id <-> marked (rn_final m) id))).
Proof. exact same_picture_proof. Qed.
Print Assumptions C54_same_picture.

(** How many tokens a place holds and an arc moves is not shown, a place of both markings looks like one
    of the initial marking only, and with names a place called after the token looks marked. *)
Theorem C54_markings_refuted :
  (exists n m, net_ok n /\ net_ok m /\ apart n /\ apart m /\ closed_arcs n /\ closed_arcs m /\
     rn_initial n <> rn_initial m /\ map rt_in (rn_transitions n) <> map rt_in (rn_transitions m) /\
     forall names ann, draw_petri_net (from_grpc_petri_net (net_grpc n)) names ann =
                       draw_petri_net (from_grpc_petri_net (net_grpc m)) names ann) /\
  (exists n m id, net_ok n /\ net_ok m /\ apart n /\ apart m /\ In id (map fst (rn_places n)) /\
     marked (rn_final n) id /\ ~ marked (rn_final m) id /\
     forall names ann, draw_petri_net (from_grpc_petri_net (net_grpc n)) names ann =
                       draw_petri_net (from_grpc_petri_net (net_grpc m)) names ann) /\
  (exists n m id, net_ok n /\ net_ok m /\ apart n /\ apart m /\ In id (map fst (rn_places n)) /\
     marked (rn_initial n) id /\ ~ marked (rn_initial m) id /\
     forall ann, draw_petri_net (from_grpc_petri_net (net_grpc n)) true ann =
                 draw_petri_net (from_grpc_petri_net (net_grpc m)) true ann).
Proof.
  split; [|split].
  - exists (mkRNet [(1%Z, str "p")] [mkRTransition 2 [mkRArc 3 1 1] [] None] (Some [(1%Z, 1%Z)]) None),
           (mkRNet [(1%Z, str "p")] [mkRTransition 2 [mkRArc 3 1 5] [] None] (Some [(1%Z, 2%Z)]) None).
    do 2 (split; [small_net|]). do 2 (split; [intros p t [<-|[]] [<-|[]]; discriminate|]).
    do 2 (split; [intros t a [<-|[]] [<-|[]]; left; reflexivity|]).
    split; [discriminate|]. split; [discriminate|]. intros [] ann; reflexivity.
  - exists (mkRNet [(1%Z, str "p")] [] (Some [(1%Z, 1%Z)]) (Some [(1%Z, 1%Z)])), (mkRNet [(1%Z, str "p")] [] (Some [(1%Z, 1%Z)]) None), 1%Z.
    do 2 (split; [small_net|]). do 2 (split; [intros p t _ []|]). split; [left; reflexivity|].
    split; [exists [(1%Z, 1%Z)], 1%Z; split; [reflexivity|left; reflexivity]|].
    split; [intros (l & k & E & _); discriminate E|]. intros [] ann; reflexivity.
  - exists (mkRNet [(1%Z, str "<&#9679;>")] [] (Some [(1%Z, 1%Z)]) None), (mkRNet [(1%Z, str "<&#9679;>")] [] None None), 1%Z.
    do 2 (split; [small_net|]). do 2 (split; [intros p t _ []|]). split; [left; reflexivity|].
    split; [exists [(1%Z, 1%Z)], 1%Z; split; [reflexivity|left; reflexivity]|].
    split; [intros (l & k & E & _); discriminate E|]. reflexivity.
Qed.
Print Assumptions C54_markings_refuted.

(** ViewGraph2 and ViewDirectlyFollowsGraph2: one node per node of the graph with its label, one edge per
    edge, in its direction, with its label. *)
Theorem C54_graph :
  forall float_repr o l gr values g, l = LViewGraph \/ l = LViewDfg -> graph_ok gr ->
  value_grpc (str "graph") (VGraph gr) = Some g -> dget str_eq_dec values (str "graph") = Some g ->
  exists calls, leaf_show float_repr o l values = Ok (ShCalls calls) /\
  NoDup (node_names calls) /\
  (forall s, In s (node_names calls) <-> exists id, In id (map fst (rg_nodes gr)) /\ s = show_int id) /\
  (forall n, In n (rg_nodes gr) -> In (GvNode (show_int (fst n)) (text_of (snd n)) (str "circle") true) calls) /\
  Permutation (edges calls) (map (fun e => (show_int (fst (fst e)), show_int (snd (fst e)), text_of (snd e))) (rg_edges gr)).
Proof. exact view_graph_proof. Qed.
Print Assumptions C54_graph.

(** * Cases *)

(** A net with a marked place, a visible and a silent transition, drawn with counts at two of its three
    arcs. *)
Definition pictured_net : rnet :=
  mkRNet [(1%Z, str "p1"); (2%Z, str "p2"); (3%Z, str "p3")]
    [mkRTransition 4 [mkRArc 5 1 1] [mkRArc 6 2 1; mkRArc 7 3 1] (Some (str "a")); mkRTransition 8 [] [] None]
    (Some [(1%Z, 1%Z)]) (Some [(3%Z, 1%Z)]).
Example C54_example_net :
  net_ok pictured_net /\ apart pictured_net /\ closed_arcs pictured_net.
Proof.
  split; [small_net|]. split.
  - intros p t [<-|[<-|[<-|[]]]] [<-|[<-|[]]]; discriminate.
  - intros t a [<-|[<-|[]]]; cbn; intuition (subst; cbn; intuition).
Qed.
Example C54_example_picture :
  draw_petri_net (from_grpc_petri_net (net_grpc pictured_net)) false (Some [(5%Z, str "12"); (7%Z, str "3")]) =
  [GvNode (str "1") (str "<&#9679;>") (str "circle") true; GvNode (str "2") [] (str "circle") true;
   GvNode (str "3") (str "<&#9679;>") (str "doublecircle") true; GvNode (str "4") (str "a") (str "box") false;
   GvNode (str "8") [] (str "box") false; GvEdge (str "1") (str "4") (str "12"); GvEdge (str "4") (str "2") [];
   GvEdge (str "4") (str "3") (str "3")].
Proof. vm_compute. reflexivity. Qed.
(** Without distinct ids for places and transitions two nodes have one name. *)
Example C54_example_shared_id :
  node_names (draw_petri_net (from_grpc_petri_net (net_grpc (mkRNet [(1%Z, [])] [mkRTransition 1 [] [] None] None None))) false None)
  = [str "1"; str "1"].
Proof. vm_compute. reflexivity. Qed.
