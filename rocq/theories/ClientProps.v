(** C42 and C43: the gRPC client. *)
From Verif Require Import Py WireModel ConstModel ClientModel ClientSpec ClientProofs.

(** * C43 *)

(** When the pipeline can be sent at all, the registered parts are exactly the callback parts at any
    depth. *)
Theorem C43_registered_exactly :
  forall parts g, pipeline_grpc parts = Ok g ->
  forall p, In p (callbacks parts) <-> inside p parts /\ bears_callback p.
Proof. exact sent_callbacks. Qed.
Print Assumptions C43_registered_exactly.

(** Without a PrintEventlogInfoBeforeAfter inside, the same holds whether or not it can be sent. *)
Theorem C43_registered_without_before_after :
  forall parts p, (forall u inner, ~ inside (PBeforeAfter u inner) parts) ->
  (In p (callbacks parts) <-> inside p parts /\ bears_callback p).
Proof. exact callbacks_exact. Qed.
Print Assumptions C43_registered_without_before_after.

(** The uuids that the sent pipeline asks results for, at any depth, are those of the registered parts, in
    the same order. *)
Theorem C43_uuids_on_the_wire :
  forall parts g, pipeline_grpc parts = Ok g ->
  flat_map part_frontends g = map (fun p => uuid_str (part_uuid p)) (callbacks parts).
Proof. exact pipeline_frontends. Qed.
Print Assumptions C43_uuids_on_the_wire.

(** A PrintEventlogInfoBeforeAfter at any depth makes the conversion fail. *)
Theorem C43_before_after_never_sent :
  forall u inner parts, inside (PBeforeAfter u inner) parts -> exists e, pipeline_grpc parts = Err e.
Proof. exact before_after_Err. Qed.
Print Assumptions C43_before_after_never_sent.

(** Taken alone, append_parts_with_callbacks misses the callback parts inside such a part. *)
Theorem C43_before_after_refuted :
  exists parts p, inside p parts /\ bears_callback p /\ ~ In p (callbacks parts).
Proof.
  exists [PBeforeAfter 1 [PLeaf 2 LPrintInfo]], (PLeaf 2 LPrintInfo). split; [|split].
  - eapply inside_deep; [left; reflexivity|constructor|]. apply inside_here. left; reflexivity.
  - vm_compute. reflexivity.
  - vm_compute. intros [].
Qed.
Print Assumptions C43_before_after_refuted.

(** A pipeline with callback parts at depth 0, 1 and 2. *)
Definition example_until : until :=
  mkUntil None MaximalRepeats NarrowUp 1%Z FromAllTraces DontInsert 20%Z FromAllLog 0%Z 0%Z NoFilter false.
Definition example_parts : list part :=
  [PLeaf 1 LReadXes; PLeaf 2 LPrintInfo;
   PUntil 3 example_until
     (Some [PLeaf 4 (LFilterCount 3%Z); PEachLog 5 SourceTracesActivities 0%Z [PLeaf 6 LAlpha; PLeaf 7 LViewPetriNet]]);
   PLeaf 8 (LFullDiagram false)].
Example C43_example :
  map part_uuid (callbacks example_parts) = [2%N; 7%N; 8%N] /\
  (exists g, pipeline_grpc example_parts = Ok g /\ length (flat_map part_frontends g) = 3) /\
  inside (PLeaf 7 LViewPetriNet) example_parts.
Proof.
  split; [reflexivity|]. split; [eexists; split; vm_compute; reflexivity|].
  eapply inside_deep; [right; right; left; reflexivity|constructor|].
  eapply inside_deep; [right; left; reflexivity|constructor|].
  apply inside_here. right; left; reflexivity.
Qed.

(** * C42 *)

(** Once the request is sent and the stream is some ordinary messages [pre] followed by [rest]: the
    world changes exactly by the actions delivered by [pre], up to the first that raises; if none raises
    and a final message follows, nothing after it is looked at and the result is dropped iff it is a
    success, with its guid; if the stream ends without one, nothing is dropped; a malformed uuid ends
    the execution with ValueError. *)
Theorem C42_dispatch :
  forall W (callback : part -> dict pystr gvalue -> W -> W * result unit) (print : pystr -> W -> W)
         (server : pystr -> grequest -> list gmessage * option exc) (drop : pystr -> result unit)
         parts ctx w a req pre rest failure,
  let out := execute W callback print server drop parts ctx w in
  o_addr out = Some a -> o_request out = Some req ->
  server a req = (pre ++ rest, failure) ->
  Forall ordinary pre ->
  exists acts,
    deliver (fun p => inside p parts /\ bears_callback p) pre acts /\
    (forall e, snd (perform callback print acts w) = Err e ->
       o_world out = fst (perform callback print acts w) /\ o_result out = Err e /\ o_drop out = None) /\
    (snd (perform callback print acts w) = Ok tt ->
       (forall f r, rest = MFinal f :: r ->
          o_world out = fst (perform callback print acts w) /\
          (forall g, o_drop out = Some g <-> f = FSuccess g) /\
          (forall g, f = FSuccess g -> o_result out = match drop g with Ok _ => Ok (MFinal f) | Err e => Err e end) /\
          ((forall g, f <> FSuccess g) -> o_result out = Ok (MFinal f))) /\
       (rest = [] ->
          o_world out = fst (perform callback print acts w) /\
          o_drop out = None /\
          (forall e, failure = Some e -> o_result out = Err e) /\
          (failure = None -> pre = [] -> o_result out = Err AttributeError) /\
          (forall p m, failure = None -> pre = p ++ [m] -> o_result out = Ok m)) /\
       (forall id values r, rest = MPart id values :: r ->
          (forall c, In c id -> c = 45%N \/ unhex c <> None) ->
          length (filter (fun c => negb (c =? 45)%N) id) <> 32 ->
          o_world out = fst (perform callback print acts w) /\
          o_result out = Err ValueError /\ o_drop out = None)).
Proof. intros W. exact execute_results_proof. Qed.
Print Assumptions C42_dispatch.

(** With distinct uuids the delivered actions are determined: each result goes to the one part with its
    uuid, once, in stream order. *)
Theorem C42_dispatch_determined :
  forall parts msgs acts acts', distinct_uuids parts ->
  deliver (fun p => inside p parts /\ bears_callback p) msgs acts ->
  deliver (fun p => inside p parts /\ bears_callback p) msgs acts' ->
  Forall2 (fun x y => match x, y with
                      | Call p d, Call q e => p = q /\ forall k v, In (k, v) d <-> In (k, v) e
                      | Say s, Say t => s = t
                      | _, _ => False
                      end) acts acts'.
Proof. exact deliver_determined_proof. Qed.
Print Assumptions C42_dispatch_determined.

(** The address comes from the context or is the default, the entry is removed from the caller's dict,
    and what is sent is every other entry, in order, converted. *)
Theorem C42_address :
  forall W callback print server drop parts ctx (w : W),
  NoDup (map fst ctx) ->
  let out := execute W callback print server drop parts ctx w in
  o_ctx out = filter (fun kv => if str_eq_dec (fst kv) (str "backend") then false else true) ctx /\
  (forall a, In (str "backend", CPlain a) ctx -> o_addr out = Some a) /\
  (~ In (str "backend") (map fst ctx) -> o_addr out = Some (str "localhost:8080")) /\
  (forall req, o_request out = Some req ->
     o_addr out <> None /\
     Forall2 (fun kv gv => fst gv = fst kv /\ ctxval_grpc (snd kv) = Ok (snd gv)) (o_ctx out) (rq_context req)).
Proof. intros W. exact execute_address_proof. Qed.
Print Assumptions C42_address.

(** If no request is sent, no callback runs, nothing is dropped and an exception is raised. *)
Theorem C42_nothing_sent :
  forall W callback print server drop parts ctx (w : W),
  let out := execute W callback print server drop parts ctx w in
  o_request out = None -> o_world out = w /\ o_drop out = None /\ exists e, o_result out = Err e.
Proof. intros W. exact execute_not_sent_proof. Qed.
Print Assumptions C42_nothing_sent.

(** A uuid is read back from its text, so the text identifies the part. *)
Theorem C42_uuid_text :
  forall u, (u < 2 ^ 128)%N -> uuid_parse (uuid_str u) = Ok u.
Proof. exact uuid_parse_str. Qed.
Print Assumptions C42_uuid_text.

(** A stream with a result of a nested part, a log line, a result of nobody's, a result of a top-level
    part, the final result, and one more message. *)
Definition example_stream : list gmessage :=
  [MPart (uuid_str 7) [(str "petri_net", GString (str "a")); (str "petri_net", GString (str "b"))];
   MLog (str "hi"); MPart (uuid_str 99) []; MPart (uuid_str 2) []; MFinal (FSuccess (str "g"));
   MPart (uuid_str 8) []].
Definition example_out : outcome (list N) :=
  execute (list N) (fun p d w => (w ++ [part_uuid p; N.of_nat (length d)], Ok tt)) (fun s w => w ++ [1000%N])
    (fun _ _ => (example_stream, None)) (fun _ => Ok tt) example_parts
    [(str "path", CString (str "log.xes")); (str "backend", CPlain (str "host:1"))] [].
Example C42_example :
  o_world example_out = [7; 1; 1000; 2; 0]%N /\
  o_drop example_out = Some (str "g") /\ o_addr example_out = Some (str "host:1") /\
  option_map (fun r => map fst (rq_context r)) (o_request example_out) = Some [str "path"] /\
  o_result example_out = Ok (MFinal (FSuccess (str "g"))).
Proof. vm_compute. repeat split; reflexivity. Qed.
Example C42_example_ordinary : Forall ordinary (firstn 4 example_stream) /\ distinct_uuids example_parts.
Proof.
  split.
  - repeat constructor; eexists; (split; [|reflexivity]); vm_compute; reflexivity.
  - assert (Hreg : forall p, inside p example_parts -> bears_callback p -> In p (callbacks example_parts)).
    { intros p Hi Hb. eapply C43_registered_exactly; [vm_compute; reflexivity|]. auto. }
    intros p q Hp Bp Hq Bq E. apply Hreg in Hp; [|exact Bp]. apply Hreg in Hq; [|exact Bq].
    vm_compute in Hp, Hq. intuition (subst; try reflexivity; discriminate).
Qed.
