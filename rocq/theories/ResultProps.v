(** C44: context values survive the wire format. *)
From Coq Require Import SpecFloat.
From Verif Require Import Py XesModel WireModel ConstModel ClientModel ClientSpec ClientProps
  BackendModel FloatFacts BackendSpec BackendProofs DecodeModel ResultSpec ResultProofs.

(** * From the frontend to the backend *)

(** A value can be sent exactly when its numbers fit, its strings can be encoded and, for a pipeline, its
    parts can be sent.  A plain str and an EventLogInfo never can. *)
Theorem C44_sendable :
  forall v, (exists g, ctxval_grpc v = Ok g) <-> value_ok v.
Proof. exact value_ok_proof. Qed.
Print Assumptions C44_sendable.

(** A sent string, number, boolean, names log, known enum variant, list of strings or pipeline is read as
    that value ([carried]). *)
Theorem C44_value_kept :
  forall v g x, ctxval_grpc v = Ok g ->
  match v with
  | CPipeline parts => forall p, inside p parts -> bears_callback p -> uuid_ok (part_uuid p)
  | _ => True
  end ->
  carried v = Some x -> read_value g = Ok (Some x).
Proof. exact value_kept_proof. Qed.
Print Assumptions C44_value_kept.

(** The initial context is read entry by entry, when all its keys are keys of the backend. *)
Theorem C44_context_kept :
  forall ctx c held, initial_context_grpc ctx = Ok c -> NoDup (map fst ctx) ->
  Forall2 (fun kv kx => fst kv = fst kx /\ carried (snd kv) = Some (snd kx)) ctx held ->
  (forall kv, In kv ctx ->
     In (fst kv) (map fst backend_keys) /\
     match snd kv with
     | CPipeline parts => forall p, inside p parts -> bears_callback p -> uuid_ok (part_uuid p)
     | _ => True
     end) ->
  initial_context c [] = Ok held.
Proof. exact context_kept_proof. Qed.
Print Assumptions C44_context_kept.

(** A float arrives unchanged when its number is one of binary32. *)
Theorem C44_float_kept :
  forall x, binary64 x -> in_binary32 x -> as_f64 (f32 x) = x.
Proof. exact float_kept_proof. Qed.
Print Assumptions C44_float_kept.

(** 0.1 does not. *)
Theorem C44_float_refuted :
  exists x, binary64 x /\ as_f64 (f32 x) <> x.
Proof.
  exists (S754_finite false 7205759403792794 (-56)). split; [vm_compute; reflexivity|]. vm_compute. discriminate.
Qed.
Print Assumptions C44_float_refuted.

(** An enum value the backend does not know is dropped without a word. *)
Theorem C44_unknown_enum_dropped :
  forall ty v g, ctxval_grpc (CEnum ty v) = Ok g -> carried (CEnum ty v) = None -> read_value g = Ok None.
Proof. exact unknown_enum_proof. Qed.
Print Assumptions C44_unknown_enum_dropped.

(** A hashes log can be built and sent, and always makes the backend panic. *)
Theorem C44_hashes_log_refuted :
  (exists log g, ctxval_grpc (CHashesLog log) = Ok g) /\
  forall log g, ctxval_grpc (CHashesLog log) = Ok g -> read_value g = Err AssertionErr.
Proof. split; [exists [[1%Z]]; eexists; reflexivity|exact hashes_panic]. Qed.
Print Assumptions C44_hashes_log_refuted.

(** * From the backend to the frontend *)

(** Every place, transition, arc and marked place of a net is kept, ids read as signed numbers. *)
Theorem C44_petri_net_kept :
  forall n, net_ok n -> exists g, value_grpc (str "petri_net") (VNet n) = Some g /\
  from_grpc_petri_net (as_petri_net g) =
  mkNet (map (fun p => (signed (fst p), held_place p)) (rn_places n))
        (map (fun t => (signed (rt_id t), held_transition t)) (rn_transitions n))
        (held_marking (rn_initial n)) (held_marking (rn_final n)).
Proof. intros n H. eexists. split; [reflexivity|]. apply petri_net_proof. exact H. Qed.
Print Assumptions C44_petri_net_kept.

(** A missing marking is not told from an empty one. *)
Theorem C44_missing_marking_refuted :
  exists n m, net_ok n /\ net_ok m /\ rn_initial n <> rn_initial m /\
  from_grpc_petri_net (net_grpc n) = from_grpc_petri_net (net_grpc m).
Proof.
  exists (mkRNet [] [] None None), (mkRNet [] [] (Some []) None).
  assert (H : forall i, net_ok (mkRNet [] [] i None) <-> marking_words i).
  { intros i. split; [intros []; assumption|]. intros H.
    split; [constructor|constructor|intros ? []|intros ? []|intros ? ? []|exact H|intros ? ? E; discriminate E]. }
  split; [apply H; intros l p E; discriminate E|]. split.
  - apply H. intros l p E. injection E as <-. intros [].
  - split; [discriminate|reflexivity].
Qed.
Print Assumptions C44_missing_marking_refuted.

(** Every node and edge of a graph is kept, in order; missing data reads as an empty text. *)
Theorem C44_graph_kept :
  forall gr, exists g, value_grpc (str "graph") (VGraph gr) = Some g /\
  from_grpc_graph (as_graph g) =
  mkGraph (map (fun n => mkNode (fst n) match snd n with Some s => s | None => [] end) (rg_nodes gr))
          (map (fun e => mkEdge (fst (fst e)) (snd (fst e)) match snd e with Some s => s | None => [] end) (rg_edges gr)).
Proof. intros gr. eexists. split; [reflexivity|]. apply graph_proof. Qed.
Print Assumptions C44_graph_kept.

(** Every entry of an annotation is kept. *)
Theorem C44_annotations_kept :
  forall float_repr,
  (forall l, NoDup (map fst l) -> (forall a, In a l -> word (fst a) /\ word (snd a)) ->
     exists g, value_grpc (str "petri_net_count_annotation") (VCounts l) = Some g /\
     get_annotation float_repr ACount g = map (fun a => (signed (fst a), show_int (signed (snd a)))) l) /\
  (forall l k key, (k = AFrequency /\ key = str "petri_net_frequency_annotation" \/
                    k = ATraceFrequency /\ key = str "petri_net_trace_frequency_annotation") ->
     NoDup (map fst l) -> (forall a, In a l -> word (fst a)) ->
     exists g, value_grpc key (VFreqs l) = Some g /\
     get_annotation float_repr k g = map (fun a => (signed (fst a), float_repr (f32 (snd a)))) l).
Proof.
  intros float_repr. split.
  - intros l Hn Hw. eexists. split; [reflexivity|]. apply counts_proof; assumption.
  - intros l k key [[-> ->]|[-> ->]] Hn Hw; (eexists; split; [reflexivity|]; apply freqs_proof; assumption).
Qed.
Print Assumptions C44_annotations_kept.

(** A names log arrives as it is; a colours log when positions and lengths have 32 bits; the three counts
    in their places. *)
Theorem C44_logs_kept :
  (forall log, exists g, value_grpc (str "names_event_log") (VNames log) = Some g /\ as_names_log g = log) /\
  (forall log, (forall t r, In t log -> In r t -> u32 (rr_start r) /\ u32 (rr_length r)) ->
     exists g, value_grpc (str "colors_event_log") (VColors log) = Some g /\
     from_grpc_colors_log (as_colors g) = map (map held_rect) log) /\
  (forall events traces classes, u32 events -> u32 traces -> u32 classes ->
     exists g, value_grpc (str "event_log_info") (VInfo events traces classes) = Some g /\
     let i := from_grpc_event_log_info (as_info g) in
     li_events i = events /\ li_traces i = traces /\ li_classes i = classes).
Proof.
  split; [|split].
  - intros log. eexists. split; reflexivity.
  - intros log H. eexists. split; [reflexivity|]. apply colors_proof. exact H.
  - intros e t c He Ht Hc. eexists. split; [reflexivity|]. cbn. rewrite !as_u32_small by assumption. auto.
Qed.
Print Assumptions C44_logs_kept.

(** A rectangular dataset arrives with its names and its numbers as binary32; labels become one more
    column. *)
Theorem C44_datasets_kept :
  (forall d key, key = str "traces_activities_dataset" \/ key = str "log_traces_dataset" -> regular d ->
     exists g, value_grpc key (VDataset d) = Some g /\
     from_grpc_ficus_dataset (as_dataset g) =
     Ok (mkFrame (rd_columns d) (rd_names d) (map (map (fun x => CellFloat (f32 x))) (rd_values d)))) /\
  (forall d labels colors key,
     key = str "labeled_traces_activities_dataset" \/ key = str "labeled_log_traces_dataset" ->
     regular d -> length labels = length (rd_values d) -> (forall z, In z labels -> label32 z) ->
     ~ In (str "cluster_labels") (rd_columns d) ->
     exists g, value_grpc key (VLabeled d labels colors) = Some g /\
     from_grpc_labeled_dataset (as_labeled g) =
     Ok (mkFrame (rd_columns d ++ [str "cluster_labels"]) (rd_names d)
           (map (fun rl => map (fun x => CellFloat (f32 x)) (fst rl) ++ [CellInt (snd rl)])
              (combine (rd_values d) labels)))).
Proof.
  split.
  - intros d key [-> | ->] Hr; (eexists; split; [reflexivity|]; apply dataset_proof; exact Hr).
  - intros d labels colors key [-> | ->] Hr Hl Hs Hc; (eexists; split; [reflexivity|]; apply labeled_proof; assumption).
Qed.
Print Assumptions C44_datasets_kept.

(** An event class called cluster_labels is overwritten by the labels. *)
Theorem C44_labels_column_refuted :
  exists d d' labels colors, regular d /\ regular d' /\ length labels = length (rd_values d) /\
  rd_values d <> rd_values d' /\
  from_grpc_labeled_dataset (mkGLabeled (dataset_grpc d) (map as_i32 labels) (map color_grpc colors)) =
  from_grpc_labeled_dataset (mkGLabeled (dataset_grpc d') (map as_i32 labels) (map color_grpc colors)).
Proof.
  exists (mkRDataset [[S754_zero false]] [str "cluster_labels"] [str "a"]),
         (mkRDataset [[S754_infinity false]] [str "cluster_labels"] [str "a"]), [1%Z], [].
  split; [split; [reflexivity|intros row [<-|[]]; reflexivity]|].
  split; [split; [reflexivity|intros row [<-|[]]; reflexivity]|].
  split; [reflexivity|]. split; [discriminate|]. vm_compute. reflexivity.
Qed.
Print Assumptions C44_labels_column_refuted.

(** * Cases *)

Definition example_context : list (pystr * ctxval) :=
  [(str "path", CString (str "log.xes")); (str "tolerance", CFloat (S754_finite false 4503599627370496 (-53)));
   (str "distance", CEnum (str "FicusDistance") (str "L2")); (str "pipeline", CPipeline example_parts)].
Example C44_example_context :
  exists c held, initial_context_grpc example_context = Ok c /\
  Forall2 (fun kv kx => fst kv = fst kx /\ carried (snd kv) = Some (snd kx)) example_context held /\
  (forall kv, In kv example_context -> In (fst kv) (map fst backend_keys)) /\
  initial_context c [] = Ok held /\ length held = 4.
Proof.
  eexists _, (map (fun kv => (fst kv, match carried (snd kv) with Some x => x | None => VBool false end)) example_context).
  split; [vm_compute; reflexivity|].
  split; [unfold example_context; cbn [map]; repeat (apply Forall2_cons; [split; reflexivity|]); apply Forall2_nil|].
  split; [|split; vm_compute; reflexivity].
  intros kv H. cbn in H. destruct H as [<-|[<-|[<-|[<-|[]]]]];
    (cbn; repeat (first [left; reflexivity|right])).
Qed.
(** 0.5 is a number of both formats, written with different mantissas. *)
Example C44_example_float :
  let x := S754_finite false 4503599627370496 (-53) in
  binary64 x /\ in_binary32 x /\ f32 x = S754_finite false 8388608 (-24).
Proof.
  split; [vm_compute; reflexivity|]. split; [|vm_compute; reflexivity].
  exists (S754_finite false 8388608 (-24)). split; [vm_compute; reflexivity|].
  cbn. split; [reflexivity|]. left. split; [discriminate|reflexivity].
Qed.
(** A net with two transitions, weighted arcs and an id that does not fit in an i64. *)
Definition example_net : rnet :=
  mkRNet [(1%Z, str "p1"); ((2 ^ 64 - 1)%Z, str "p2")]
    [mkRTransition 3 [mkRArc 4 1 1] [mkRArc 5 (2 ^ 64 - 1) 2] (Some (str "a")); mkRTransition 6 [] [] None]
    (Some [(1%Z, 1%Z)]) None.
Example C44_example_net :
  net_ok example_net /\
  dget Z.eq_dec (pn_places (from_grpc_petri_net (net_grpc example_net))) (-1)%Z = Some (mkPlace (-1) (str "p2")).
Proof.
  split; [|vm_compute; reflexivity]. split; cbn.
  - repeat constructor; cbn; intuition discriminate.
  - repeat constructor; cbn; intuition discriminate.
  - intros p [<-|[<-|[]]]; split; cbn; (discriminate || reflexivity).
  - intros p [<-|[<-|[]]]; split; cbn; (discriminate || reflexivity).
  - intros t a [<-|[<-|[]]]; cbn; [|intros []]. intros [<-|[<-|[]]]; repeat split; cbn; (discriminate || reflexivity).
  - intros l p E. injection E as <-. intros [<-|[]]. repeat split; cbn; (discriminate || reflexivity).
  - intros l p E. discriminate E.
Qed.
Example C44_example_dataset :
  regular (mkRDataset [[S754_zero false; S754_zero true]] [str "a"; str "b"] [str "t"]).
Proof. split; [reflexivity|]. intros row [<-|[]]. reflexivity. Qed.
