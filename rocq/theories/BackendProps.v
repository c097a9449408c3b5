(** C51: every part of the client is understood by the backend. *)
From Verif Require Import Py WireModel ConstModel ClientModel ClientSpec ClientProps
  BackendModel BackendSpec BackendProofs BackendConfig.

(** A pipeline can be sent exactly when every part at any depth is a real part with numbers of 32 bits and
    strings that UTF-8 can hold. *)
Theorem C51_sendable :
  forall parts, (exists g, pipeline_grpc parts = Ok g) <-> forall p, inside p parts -> part_ok p.
Proof. exact sendable_proof. Qed.
Print Assumptions C51_sendable.

(** What the backend reads from a sent pipeline is, part by part and at any depth, the registered part with
    the keys, values and enum variants it is meant to be. *)
Theorem C51_understood :
  forall parts g, pipeline_grpc parts = Ok g ->
  (forall p, inside p parts -> bears_callback p -> uuid_ok (part_uuid p)) ->
  read_parts read_part g = Ok (map wanted parts).
Proof. exact understood_proof. Qed.
Print Assumptions C51_understood.

(** Every part read, at any depth, finds all the configuration it asks for, each value with the type of
    its key, and asks only for keys that exist, unless it searches tandem arrays through find_patterns. *)
Theorem C51_configured :
  forall parts g, pipeline_grpc parts = Ok g -> (forall p, inside p parts -> ~ hungry p) ->
  forall r, rinside r (map wanted parts) -> configured r.
Proof. exact configured_proof. Qed.
Print Assumptions C51_configured.

(** Those parts always make the backend panic: the client does not send tandem_array_length for
    DiscoverActivitiesUntilNoMore2, and the backend drops it for DiscoverActivitiesForSeveralLevels2. *)
Theorem C51_tandem_panics :
  forall p, hungry p ->
  exists name c, config_of (wanted p) = Some (name, c) /\ part_config name c = Err AssertionErr.
Proof.
  intros p H. destruct p as [u l|u c after| | | |]; cbn [hungry] in H; try contradiction.
  - destruct l; try contradiction. apply several_panics; apply H.
  - apply until_panics. exact H.
Qed.
Print Assumptions C51_tandem_panics.

(** So C51_configured without its last hypothesis is false. *)
Theorem C51_configured_refuted :
  exists parts g r, pipeline_grpc parts = Ok g /\ rinside r (map wanted parts) /\ ~ configured r.
Proof.
  pose (c := mkUntil None PrimitiveTandemArrays NarrowUp 1%Z FromAllTraces DontInsert 20%Z FromAllLog 0%Z 0%Z NoFilter false).
  exists [PUntil 1 c None]. eexists. exists (wanted (PUntil 1 c None)). split; [vm_compute; reflexivity|]. split.
  - apply rinside_here. left. reflexivity.
  - intros [_ H]. destruct (C51_tandem_panics (PUntil 1 c None)) as [name [cf [E1 E2]]]; [left; reflexivity|].
    destruct (H name cf E1) as [_ [_ E3]]. rewrite E2 in E3. discriminate.
Qed.
Print Assumptions C51_configured_refuted.

(** Keys the backend does not know are skipped, as if they had not been sent. *)
Theorem C51_unknown_keys_skipped : forall name before keys frontend config,
  let known := filter (fun p : pystr * gvalue => existsb (str_eqb (fst p)) (map fst backend_keys)) config in
  read_part (GDefault name config) = read_part (GDefault name known) /\
  read_part (GComplex keys before config frontend) = read_part (GComplex keys before known frontend).
Proof.
  intros name before keys frontend config known. cbn [read_part]. assert (E : read_config read_value config [] = read_config read_value known []).
  { unfold known. apply config_filtered. }
  split; [|destruct (uuid_parse frontend); [|reflexivity]]; apply (f_equal (fun r => bind r _)); exact E.
Qed.
Print Assumptions C51_unknown_keys_skipped.
Example C51_unknown_keys_case :
  read_part (GDefault (str "GetEventLogInfo") [(str "no such key", GUnset); (str "events_count", GUint32 5)]) =
  Ok (RDefault (str "GetEventLogInfo") [(str "events_count", VU32 5)]).
Proof. vm_compute. reflexivity. Qed.

(** The pipeline of C43_example meets the hypotheses. *)
Example C51_example :
  (exists g, pipeline_grpc example_parts = Ok g) /\
  (forall p, inside p example_parts -> bears_callback p -> uuid_ok (part_uuid p)) /\
  (forall p, inside p example_parts -> ~ hungry p) /\
  rinside (RGet [str "petri_net"] 7 None) (map wanted example_parts).
Proof.
  assert (Hall : forall p, inside p example_parts -> (part_uuid p < 10)%N /\ ~ hungry p).
  { Ltac enum Hi :=
      apply ClientProofs.inside_down in Hi; destruct Hi as [? [?Hq Hi]];
      cbn in Hq; repeat (destruct Hq as [<-|Hq]); [..|destruct Hq];
      apply ClientProofs.inside_single in Hi; destruct Hi as [->|[? [?Hh Hi]]];
      try (split; [reflexivity|intros Hz; try destruct Hz as [Hz|Hz]; solve [discriminate Hz|destruct Hz]]);
      try solve [inversion Hh]; try (inversion Hh; subst; clear Hh; enum Hi).
    intros p Hi. enum Hi. }
  split; [eexists; vm_compute; reflexivity|]. split; [|split].
  - intros p Hi _. unfold uuid_ok. eapply N.lt_trans; [exact (proj1 (Hall p Hi))|]. reflexivity.
  - intros p Hi. exact (proj2 (Hall p Hi)).
  - eapply rinside_deep; [right; right; left; reflexivity|reflexivity|do 10 right; left; reflexivity|].
    eapply rinside_deep; [right; left; reflexivity|reflexivity|left; reflexivity|].
    apply rinside_here. right; left; reflexivity.
Qed.
(** A part that cannot be sent: the number is too large. *)
Example C51_too_large : ~ exists g, pipeline_grpc [PLeaf 1 (LFilterCount (2 ^ 32)%Z)] = Ok g.
Proof. intros [g H]. discriminate H. Qed.
