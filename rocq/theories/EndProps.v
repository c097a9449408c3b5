(** C53: what a user sees of a pipeline executed by the backend. *)
From Verif Require Import Py WireModel ConstModel ClientModel ClientSpec ClientProofs ClientProps
  BackendModel BackendSpec DecodeModel ResultSpec EndSpec EndProofs.

(** Through conversion, backend and dispatch: once the pipeline is sent, its parts run in order with the
    configuration they were given, on the context that was given; messages of a part are seen while it
    runs; each part with a callback is called once, after it ran, with the values it asked for.  The first
    exception of a callback ends it.  The result is the backend's success, which is then dropped, or its
    error; after a panic it is neither. *)
Theorem C53_execution :
  forall W callback print drop run missing guid parts ctx held (w : W) req,
  let server := fun (_ : pystr) rq => (fst (serve run missing guid rq), None) in
  let cbs := fun p => inside p parts /\ bears_callback p in
  let out := execute W callback print server drop parts ctx w in
  o_request out = Some req ->
  (forall name config c, Forall ordinary (fst (run name config c))) ->
  distinct_uuids parts -> (forall p, inside p parts -> bears_callback p -> uuid_ok (part_uuid p)) ->
  NoDup (map fst ctx) ->
  Forall2 (fun kv kx => fst kv = fst kx /\ carried (snd kv) = Some (snd kx)) (o_ctx out) held ->
  (forall kv, In kv (o_ctx out) ->
     In (fst kv) (map fst backend_keys) /\
     match snd kv with
     | CPipeline l => forall p, inside p l -> bears_callback p -> uuid_ok (part_uuid p)
     | _ => True
     end) ->
  exists start acts e,
    starts_with held start /\ session run missing cbs parts start acts e /\
    (forall c, snd (serve run missing guid req) = Some c <-> e = Finished c) /\
    o_world out = fst (perform callback print acts w) /\
    match snd (perform callback print acts w) with
    | Err x => o_result out = Err x /\ o_drop out = None
    | Ok _ =>
        match e with
        | Finished _ => o_drop out = Some guid /\
            o_result out = match drop guid with Ok _ => Ok (MFinal (FSuccess guid)) | Err x => Err x end
        | Broke m => o_drop out = None /\ o_result out = Ok (MFinal (FError m))
        | Died => o_drop out = None /\ forall f, o_result out <> Ok (MFinal f)
        end
    end.
Proof. exact execution_proof. Qed.
Print Assumptions C53_execution.

(** The session is determined by the pipeline and the context. *)
Theorem C53_determined :
  forall run missing all parts ctx acts e acts' e',
  let cbs := fun p => inside p all /\ bears_callback p in
  distinct_uuids all ->
  session run missing cbs parts ctx acts e -> session run missing cbs parts ctx acts' e' ->
  e = e' /\
  Forall2 (fun x y => match x, y with
                      | Call p d, Call q f => p = q /\ forall k v, In (k, v) d <-> In (k, v) f
                      | Say s, Say t => s = t
                      | _, _ => False
                      end) acts acts'.
Proof. exact session_determined_proof. Qed.
Print Assumptions C53_determined.

(** When the registered parts send nothing but log lines, the callbacks called are those of the parts that
    ran, once per place in the pipeline, in order; all parts ran exactly when the pipeline finished. *)
Theorem C53_called_in_order :
  forall run missing cbs parts ctx acts e,
  (forall name config c, Forall (fun m => exists s, m = MLog s) (fst (run name config c))) ->
  session run missing cbs parts ctx acts e ->
  exists ran rest, parts = ran ++ rest /\ called acts = filter has_callback ran /\
  ((exists c, e = Finished c) <-> rest = []).
Proof. exact called_in_order_proof. Qed.
Print Assumptions C53_called_in_order.

(** No callback of the client asks the values it is given for a key it did not request. *)
Theorem C53_values_present :
  forall float_repr o p keys before ctx d,
  wanted p = RGet keys (part_uuid p) before -> (forall k, In k keys -> In k (map fst ctx)) -> sees keys ctx d ->
  part_show float_repr o p d <> Err KeyError.
Proof. exact values_present_proof. Qed.
Print Assumptions C53_values_present.

(** PrintNumberOfUnderlyingEvents2 prints 0 whatever the backend counted. *)
Theorem C53_underlying_count_is_zero :
  forall float_repr o u n ctx d,
  dget str_eq_dec ctx (str "underlying_events_count") = Some (VUsize n) -> sees [str "underlying_events_count"] ctx d ->
  part_show float_repr o (PLeaf u LPrintUnderlyingCount) d = Ok (ShPrint (str "Underlying events count: 0")).
Proof. exact underlying_zero_proof. Qed.
Print Assumptions C53_underlying_count_is_zero.

(** So it is not the number of events counted by the backend that is printed. *)
Theorem C53_underlying_count_refuted :
  exists float_repr o u n ctx d,
  dget str_eq_dec ctx (str "underlying_events_count") = Some (VUsize n) /\ sees [str "underlying_events_count"] ctx d /\
  part_show float_repr o (PLeaf u LPrintUnderlyingCount) d <> Ok (ShPrint (str "Underlying events count: " ++ XesModel.show_int n)).
Proof.
  exists (fun _ => []), (mkOpts false None false), 1%N, 5%Z, [(str "underlying_events_count", VUsize 5)], [(str "underlying_events_count", GUnset)].
  split; [vm_compute; reflexivity|]. split.
  - split; [constructor; [intros []|constructor]|]. intros k g. split.
    + intros [E|[]]. injection E as <- <-. split; [left; reflexivity|]. exists (VUsize 5). split; vm_compute; reflexivity.
    + intros [[<-|[]] [v [E ->]]]. vm_compute in E. injection E as <-. left. vm_compute. reflexivity.
  - vm_compute. discriminate.
Qed.
Print Assumptions C53_underlying_count_refuted.

(** * A case *)

(** Two parts, of which one has a callback, run by a backend whose parts write one line each. *)
Definition session_parts : list part := [PLeaf 1 LReadXes; PLeaf 2 LPrintLog; PLeaf 3 LAlpha].
Definition session_run (name : pystr) (config : list (pystr * rvalue)) (ctx : userdata) : list gmessage * step :=
  ([MLog name],
   if str_eqb name (str "GetNamesEventLog") then Done (dset str_eq_dec ctx (str "names_event_log") (VNames [[str "a"]]))
   else if str_eqb name (str "DiscoverPetriNetAlpha") then Failed (str "no net")
   else Done ctx).
Definition session_ctx : dict pystr ctxval := [(str "backend", CPlain (str "host")); (str "path", CString (str "log.xes"))].
Example C53_example :
  let server := fun (_ : pystr) rq => (fst (serve session_run (fun k => k) (str "g") rq), None) in
  let out := execute (list action) (fun p d w => (w ++ [Call p d], Ok tt)) (fun s w => w ++ [Say s]) server (fun _ => Ok tt) session_parts session_ctx [] in
  o_world out = [Say (str "ReadLogFromXes"); Say (str "GetNamesEventLog");
                 Call (PLeaf 2 LPrintLog) [(str "names_event_log", GNamesLog [[str "a"]])]; Say (str "DiscoverPetriNetAlpha")] /\
  o_result out = Ok (MFinal (FError (str "no net"))) /\ o_drop out = None.
Proof. vm_compute. repeat split. Qed.
Example C53_example_hypotheses :
  (forall name config c, Forall ordinary (fst (session_run name config c))) /\
  distinct_uuids session_parts /\ (forall p, inside p session_parts -> bears_callback p -> uuid_ok (part_uuid p)) /\
  NoDup (map fst session_ctx) /\
  Forall2 (fun kv kx => fst kv = fst kx /\ carried (snd kv) = Some (snd kx)) [(str "path", CString (str "log.xes"))] [(str "path", VString (str "log.xes"))] /\
  In (str "path") (map fst backend_keys).
Proof.
  assert (Hin : forall p, inside p session_parts -> p = PLeaf 1 LReadXes \/ p = PLeaf 2 LPrintLog \/ p = PLeaf 3 LAlpha).
  { intros p H. inversion H as [l Hi|q l inner Hq Hh Hi]; subst.
    - cbn in Hi. intuition.
    - exfalso. cbn in Hq. destruct Hq as [<-|[<-|[<-|[]]]]; cbn in Hh; try contradiction; inversion Hh. }
  split; [intros; constructor; [exact I|constructor]|]. split.
  { intros p q Hp Hbp Hq Hbq _. destruct (Hin p Hp) as [->|[->| ->]]; try discriminate Hbp.
    destruct (Hin q Hq) as [->|[->| ->]]; try discriminate Hbq. reflexivity. }
  split; [intros p Hp Hb; destruct (Hin p Hp) as [->|[->| ->]]; vm_compute; reflexivity|].
  split; [repeat constructor; cbn; intuition discriminate|].
  split; [repeat constructor|]. vm_compute. intuition.
Qed.
