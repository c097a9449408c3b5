(** Proofs for C44 and C51: requests as the backend reads them. *)
From Coq Require Import SpecFloat Lia.
From Verif Require Import Py PyFacts WireModel ConstModel ClientModel ClientSpec ClientProofs
  BackendModel FloatFacts BackendSpec.

(** * One appended value *)

Definition known (k : pystr) : bool := match find_key k with Some _ => true | None => false end.

Definition reads (a : append) (kv : pystr * rvalue) : Prop :=
  fst a = fst kv /\ known (fst a) = true /\ forall g, snd a = Ok g -> read_value g = Ok (Some (snd kv)).

Lemma dset_fresh {V} (d : dict pystr V) k v : ~ In k (map fst d) -> dset str_eq_dec d k v = d ++ [(k, v)].
Proof.
  induction d as [|[k' v'] d IH]; intros H; cbn [dset app]; [reflexivity|].
  destruct (str_eq_dec k k') as [->|Hn]; [destruct H; left; reflexivity|].
  rewrite IH; [reflexivity|]. intros Hi. apply H. right. exact Hi.
Qed.

Lemma read_config_reads l cfg : Forall2 reads l cfg ->
  forall c d, build_config l = Ok c -> NoDup (map fst d ++ map fst cfg) ->
  read_config read_value c d = Ok (d ++ cfg).
Proof.
  intros HF. induction HF as [|a kv l cfg [Hk [Hknown Hg]] _ IH]; intros c d Hb Hn.
  - injection Hb as <-. rewrite app_nil_r. reflexivity.
  - apply build_config_Forall2 in Hb. inversion Hb as [|? [k g] ? c' [Hk' Hg'] Hb']; subst. cbn in Hk', Hg'.
    cbn [read_config]. subst k. unfold known in Hknown. destruct (find_key (fst a)) eqn:E; [|discriminate].
    rewrite (Hg g Hg'). cbn [bind]. rewrite Hk. destruct kv as [k v]. cbn [fst snd] in *.
    rewrite dset_fresh.
    + rewrite IH; [rewrite <- app_assoc; reflexivity| |].
      * clear -Hb'. unfold build_config. induction Hb' as [|x y l c' [Hx Hy] _ IH]; [reflexivity|].
        cbn [mapM]. rewrite Hy. cbn [bind]. rewrite IH. cbn [bind]. rewrite Hx. destruct y; reflexivity.
      * rewrite map_app, <- app_assoc. exact Hn.
    + cbn [map fst] in Hn. apply NoDup_remove_2 in Hn. intros Hi. apply Hn. apply in_or_app. left. exact Hi.
Qed.

Lemma reads_string k s : known k = true -> reads (append_string k s) (k, VString s).
Proof.
  intros Hk. split; [reflexivity|split; [exact Hk|]]. intros g H. cbn in H. unfold string_value, pb_string in H.
  destruct (existsb surrogate s); [discriminate|]. injection H as <-. reflexivity.
Qed.
Lemma reads_float k x : known k = true -> reads (append_float k x) (k, r_float x).
Proof. intros Hk. split; [reflexivity|split; [exact Hk|]]. intros g H. injection H as <-. reflexivity. Qed.
Lemma reads_bool k x : known k = true -> reads (append_bool k x) (k, VBool x).
Proof. intros Hk. split; [reflexivity|split; [exact Hk|]]. intros g H. injection H as <-. reflexivity. Qed.
Lemma reads_uint32 k z : known k = true -> reads (append_uint32 k z) (k, VU32 z).
Proof.
  intros Hk. split; [reflexivity|split; [exact Hk|]]. intros g H. cbn in H. unfold uint32_value, pb_uint32 in H.
  destruct (_ && _); [|discriminate]. injection H as <-. reflexivity.
Qed.
Lemma mapM_pb_string l r : mapM pb_string l = Ok r -> r = l.
Proof.
  intros H. apply mapM_ok_inv in H. induction H as [|x y l r Hx _ IH]; [reflexivity|].
  unfold pb_string in Hx. destruct (existsb surrogate x); [discriminate|]. injection Hx as <-. f_equal. exact IH.
Qed.
Lemma reads_strings k l : known k = true -> reads (append_strings k l) (k, VStrings l).
Proof.
  intros Hk. split; [reflexivity|split; [exact Hk|]]. intros g H. cbn in H. unfold strings_value in H.
  destruct (mapM pb_string l) as [l'|] eqn:E; [|discriminate]. injection H as <-.
  apply mapM_pb_string in E. subst. reflexivity.
Qed.
Lemma reads_enum k ty v : known k = true -> read_enum ty v = Some (VEnum ty v) ->
  reads (append_enum k ty v) (k, VEnum ty v).
Proof.
  intros Hk Hr. split; [reflexivity|split; [exact Hk|]]. intros g H. cbn [snd append_enum] in H.
  unfold enum_value, pb_string in H. destruct (existsb surrogate ty); [discriminate|]. cbn [bind] in H.
  destruct (existsb surrogate v); [discriminate|]. cbn [bind] in H. injection H as <-.
  cbn [read_value]. rewrite Hr. reflexivity.
Qed.
Ltac reads_member := intros Hk; apply reads_enum; [exact Hk|]; vm_compute; reflexivity.
Lemma reads_strategy k x : known k = true -> reads (append_strategy k x) (k, r_strategy x).
Proof. destruct x; reads_member. Qed.
Lemma reads_kind k x : known k = true -> reads (append_kind k x) (k, r_kind x).
Proof. destruct x; reads_member. Qed.
Lemma reads_narrow k x : known k = true -> reads (append_narrow k x) (k, r_narrow x).
Proof. destruct x; reads_member. Qed.
Lemma reads_filter k x : known k = true -> reads (append_filter k x) (k, r_filter x).
Proof. destruct x; reads_member. Qed.
Lemma reads_source k x : known k = true -> reads (append_source k x) (k, r_source x).
Proof. destruct x; reads_member. Qed.
Lemma reads_adjusting k x : known k = true -> reads (append_adjusting k x) (k, r_adjusting x).
Proof. destruct x; reads_member. Qed.
Lemma reads_undef k x : known k = true -> reads (append_undef k x) (k, r_undef x).
Proof. destruct x; reads_member. Qed.
Lemma reads_repr k x : known k = true ->
  reads (append_enum k const_activities_repr_source_enum_name (repr_name x)) (k, r_repr x).
Proof. destruct x; reads_member. Qed.
Lemma reads_distance k x : known k = true ->
  reads (append_enum k const_distance_enum_name (distance_name x)) (k, r_distance x).
Proof. destruct x; reads_member. Qed.
Lemma reads_traces_repr k x : known k = true ->
  reads (append_enum k const_traces_repr_source_enum_name (traces_repr_name x)) (k, r_traces_repr x).
Proof. destruct x; reads_member. Qed.
Lemma reads_pipeline k (r : result (list gpart)) ps : known k = true ->
  (forall g, r = Ok g -> read_parts read_part g = Ok ps) -> reads (append_pipeline k r) (k, VPipeline ps).
Proof.
  intros Hk Hr. split; [reflexivity|split; [exact Hk|]]. intros g H. cbn in H.
  destruct r as [gs|]; [|discriminate]. injection H as <-. cbn [read_value snd].
  rewrite (Hr gs eq_refl). reflexivity.
Qed.
Lemma reads_opt k o : known k = true -> k = str "event_class_regex" ->
  Forall2 reads (append_opt_string k o) (r_class o).
Proof. intros Hk ->. destruct o; cbn; constructor; [|constructor]. apply reads_string. exact Hk. Qed.

Lemma Forall2_one {A B} (R : A -> B -> Prop) x y : R x y -> Forall2 R [x] [y].
Proof. constructor; [assumption|constructor]. Qed.

(** * One part *)

Fixpoint nodupb (l : list pystr) : bool :=
  match l with [] => true | x :: l' => negb (existsb (str_eqb x) l') && nodupb l' end.
Lemma nodup_dec_keys (l : list pystr) : nodupb l = true -> NoDup l.
Proof.
  induction l as [|x l IH]; cbn; intros H; [constructor|]. apply andb_prop in H. destruct H as [Hx Hl].
  constructor; [|apply IH, Hl]. intros Hi. rewrite (proj2 (existsb_exists _ _)) in Hx; [discriminate|].
  exists x. split; [exact Hi|]. unfold str_eqb. destruct (str_eq_dec x x); congruence.
Qed.

Lemma default_reads name l cfg g :
  default_part name l = Ok g -> Forall2 reads l cfg -> NoDup (map fst cfg) -> find_part name = true ->
  read_part g = Ok (RDefault name cfg).
Proof.
  intros H HF Hn Hp. unfold default_part in H. destruct (build_config l) as [c|] eqn:E; [|discriminate].
  injection H as <-. cbn [read_part]. rewrite (read_config_reads l cfg HF c [] E Hn). cbn [bind app].
  rewrite Hp. reflexivity.
Qed.
Lemma complex_reads u keys name l cfg g :
  uuid_ok u -> complex_part u keys name l = Ok g -> Forall2 reads l cfg -> NoDup (map fst cfg) ->
  find_part name = true -> read_part g = Ok (RGet keys u (Some (name, cfg))).
Proof.
  intros Hu H HF Hn Hp. unfold complex_part in H. destruct (build_config l) as [c|] eqn:E; [|discriminate].
  remember (uuid_str u) as us eqn:Eus. injection H as <-. subst us. cbn [read_part]. rewrite uuid_parse_str by exact Hu.
  rewrite (read_config_reads l cfg HF c [] E Hn). cbn [bind app]. rewrite Hp. reflexivity.
Qed.
Lemma simple_reads u key g : uuid_ok u -> simple_part u key = Ok g -> read_part g = Ok (RGet [key] u None).
Proof.
  intros Hu H. unfold simple_part in H. remember (uuid_str u) as us eqn:Eus. injection H as <-. subst us.
  cbn [read_part]. rewrite uuid_parse_str by exact Hu. reflexivity.
Qed.

Ltac one_read :=
  match goal with
  | |- reads (append_strategy _ _) _ => apply reads_strategy
  | |- reads (append_kind _ _) _ => apply reads_kind
  | |- reads (append_narrow _ _) _ => apply reads_narrow
  | |- reads (append_filter _ _) _ => apply reads_filter
  | |- reads (append_source _ _) _ => apply reads_source
  | |- reads (append_adjusting _ _) _ => apply reads_adjusting
  | |- reads (append_undef _ _) _ => apply reads_undef
  | |- reads (append_enum _ const_activities_repr_source_enum_name _) _ => apply reads_repr
  | |- reads (append_enum _ const_distance_enum_name _) _ => apply reads_distance
  | |- reads (append_enum _ const_traces_repr_source_enum_name _) _ => apply reads_traces_repr
  | |- reads (append_strings _ _) _ => apply reads_strings
  | |- reads (append_uint32 _ _) _ => apply reads_uint32
  | |- reads (append_bool _ _) _ => apply reads_bool
  | |- reads (append_float _ _) _ => apply reads_float
  | |- reads (append_string _ _) _ => apply reads_string
  end; vm_compute; reflexivity.
Ltac all_reads :=
  repeat (apply Forall2_cons; [one_read|]);
  first [ apply Forall2_nil | apply reads_opt; vm_compute; reflexivity
        | apply Forall2_app; [apply reads_opt; vm_compute; reflexivity|all_reads] ].
Ltac dups := first [ apply nodup_dec_keys; vm_compute; reflexivity ].

Lemma tandem_reads maximal n class g : tandem_grpc maximal n class = Ok g -> read_part g = Ok (r_tandem maximal n class).
Proof.
  intros H. unfold tandem_grpc in H. destruct class, maximal; (eapply default_reads; [exact H|all_reads|dups|vm_compute; reflexivity]).
Qed.
Lemma repeats_reads k s class g : repeats_grpc k s class = Ok g -> read_part g = Ok (r_repeats k s class).
Proof.
  intros H. unfold repeats_grpc in H. destruct class, k; (eapply default_reads; [exact H|all_reads|dups|vm_compute; reflexivity]).
Qed.
Lemma discover_reads n g : discover_activities_grpc n = Ok g ->
  read_part g = Ok (RDefault (str "DiscoverActivities") [(str "activity_level", VU32 n)]).
Proof. intros H. eapply default_reads; [exact H|all_reads|dups|vm_compute; reflexivity]. Qed.

Lemma leaf_reads u l g : leaf_grpc u l = Ok g -> (leaf_callback l = true -> uuid_ok u) ->
  read_part g = Ok (wanted_leaf u l).
Proof.
  intros H Hu. destruct l; cbn [leaf_callback] in Hu; cbn [leaf_grpc] in H; cbn [wanted_leaf];
  try solve [eapply default_reads; [exact H|all_reads|dups|vm_compute; reflexivity]];
  try solve [eapply complex_reads; [exact (Hu eq_refl)|exact H|all_reads|dups|vm_compute; reflexivity]];
  try solve [eapply simple_reads; [exact (Hu eq_refl)|exact H]];
  try solve [apply tandem_reads; exact H];
  try solve [apply repeats_reads; exact H];
  try discriminate H.
  - eapply default_reads; [exact H| |dups|vm_compute; reflexivity].
    apply Forall2_one. apply reads_pipeline; [vm_compute; reflexivity|]. intros gs Hgs.
    destruct (patterns_part_grpc kind s max_length) as [p|] eqn:Ep; [|discriminate]. cbn [bind] in Hgs.
    destruct (discover_activities_grpc level) as [d|] eqn:Ed; [|discriminate]. cbn [bind] in Hgs.
    injection Hgs as <-. cbn [read_parts]. rewrite (discover_reads _ _ Ed).
    destruct kind; cbn [patterns_part_grpc] in Ep;
      first [rewrite (tandem_reads _ _ _ _ Ep) | rewrite (repeats_reads _ _ _ _ Ep)]; reflexivity.
  - destruct c as [x1 x2 x3 x4 [x5|]]; (eapply complex_reads; [exact (Hu eq_refl)|exact H|all_reads|dups|vm_compute; reflexivity]).
  - destruct c as [x1 x2 x3 x4 [x5|]]; (eapply complex_reads; [exact (Hu eq_refl)|exact H|all_reads|dups|vm_compute; reflexivity]).
  - destruct c as [x1 x2 x3 x4 [x5|]]; (eapply complex_reads; [exact (Hu eq_refl)|exact H|all_reads|dups|vm_compute; reflexivity]).
  - destruct class; (eapply complex_reads; [exact (Hu eq_refl)|exact H|all_reads|dups|vm_compute; reflexivity]).
  - destruct k; (eapply complex_reads; [exact (Hu eq_refl)|exact H|all_reads|dups|vm_compute; reflexivity]).
Qed.

Lemma parts_reads l :
  Forall (fun p => forall g, to_grpc p = Ok g ->
            (forall q, inside q [p] -> bears_callback q -> uuid_ok (part_uuid q)) -> read_part g = Ok (wanted p)) l ->
  (forall q, inside q l -> bears_callback q -> uuid_ok (part_uuid q)) ->
  forall gs, convert_parts to_grpc l = Ok gs -> read_parts read_part gs = Ok (map wanted l).
Proof.
  induction l as [|p l IH]; intros HF Hu gs H; cbn [convert_parts] in H.
  - injection H as <-. reflexivity.
  - destruct (to_grpc p) as [g|] eqn:Eg; [|discriminate]. cbn [bind] in H.
    destruct (convert_parts to_grpc l) as [gs'|] eqn:E; [|discriminate]. cbn [bind] in H. injection H as <-.
    inversion HF as [|? ? Hp HF']; subst. cbn [read_parts map].
    rewrite (Hp g Eg); [|intros q Hq; apply Hu; eapply inside_up; [left; reflexivity|exact Hq]].
    cbn [bind]. rewrite (IH HF'); [reflexivity| |reflexivity].
    intros q Hq. apply Hu. apply inside_down in Hq. destruct Hq as [r [Hr Hq]].
    eapply inside_up; [right; exact Hr|exact Hq].
Qed.

Lemma to_grpc_reads p : forall g, to_grpc p = Ok g ->
  (forall q, inside q [p] -> bears_callback q -> uuid_ok (part_uuid q)) -> read_part g = Ok (wanted p).
Proof.
  induction p as [u l|u c l IH|u c|u s n l IH|u c l IH|u l IH|] using part_ind2; intros g H Hu.
  - apply leaf_reads; [exact H|]. intros Hc. apply (Hu (PLeaf u l)); [apply inside_here; left; reflexivity|exact Hc].
  - assert (Hl := parts_reads l IH ltac:(intros q Hq; apply Hu; apply inside_single; right; exists l; split; [constructor|exact Hq])).
    cbn [to_grpc] in H. unfold until_appends in H. cbn [wanted].
    destruct c as [[x0|] x1 x2 x3 x4 x5 x6 x7 x8 x9 x10 x11]; cbn [un_class append_opt_string r_class app un_narrow un_adjusting
        un_level un_min_unattached un_kind un_strategy un_min_events un_undef un_filter un_only_last] in *;
    (eapply default_reads; [exact H| |dups|vm_compute; reflexivity]);
    repeat (apply Forall2_cons; [one_read|]);
    apply Forall2_one; (apply reads_pipeline; [vm_compute; reflexivity|exact Hl]).
  - cbn [to_grpc] in H. unfold until_appends in H. cbn [wanted]. rewrite !app_nil_r in *.
    destruct c as [[x0|] x1 x2 x3 x4 x5 x6 x7 x8 x9 x10 x11]; cbn [un_class append_opt_string r_class app un_narrow un_adjusting
        un_level un_min_unattached un_kind un_strategy un_min_events un_undef un_filter un_only_last] in *;
    (eapply default_reads; [exact H|all_reads|dups|vm_compute; reflexivity]).
  - assert (Hl := parts_reads l IH ltac:(intros q Hq; apply Hu; apply inside_single; right; exists l; split; [constructor|exact Hq])).
    cbn [to_grpc] in H. cbn [wanted]. eapply default_reads; [exact H| |dups|vm_compute; reflexivity].
    apply Forall2_cons; [apply reads_pipeline; [vm_compute; reflexivity|exact Hl]|]. all_reads.
  - assert (Hl := parts_reads l IH ltac:(intros q Hq; apply Hu; apply inside_single; right; exists l; split; [constructor|exact Hq])).
    assert (Hu0 : uuid_ok u) by (apply (Hu (PLogDbscan u c l)); [apply inside_here; left; reflexivity|exact I]).
    cbn [to_grpc] in H. cbn [wanted].
    destruct c as [x1 x2 x3 x4 [x5|]]; cbn [ld_class ld_tolerance ld_distance ld_repr ld_min_events append_opt_string r_class app] in *;
    (eapply complex_reads; [exact Hu0|exact H| |dups|vm_compute; reflexivity]);
    repeat (apply Forall2_cons; [first [one_read | apply reads_pipeline; [vm_compute; reflexivity|exact Hl]]|]); all_reads.
  - cbn [to_grpc] in H. destruct (convert_parts to_grpc l); discriminate H.
  - discriminate H.
Qed.

Lemma understood_proof parts g : pipeline_grpc parts = Ok g ->
  (forall p, inside p parts -> bears_callback p -> uuid_ok (part_uuid p)) ->
  read_parts read_part g = Ok (map wanted parts).
Proof.
  intros H Hu. eapply parts_reads; [|exact Hu|exact H].
  apply Forall_forall. intros p _ g0 Hg Hq. exact (to_grpc_reads p g0 Hg Hq).
Qed.

(** * What can be sent *)

Definition sends (a : append) : Prop := exists g, snd a = Ok g.

Lemma existsb_surrogate s : existsb surrogate s = false <-> utf8 s.
Proof.
  unfold utf8. split.
  - intros H c Hc Hr. assert (E : existsb surrogate s = true); [|congruence].
    apply existsb_exists. exists c. split; [exact Hc|]. unfold surrogate.
    apply andb_true_intro. split; apply N.leb_le; lia.
  - intros H. destruct (existsb surrogate s) eqn:E; [|reflexivity]. apply existsb_exists in E.
    destruct E as [c [Hc Hs]]. unfold surrogate in Hs. apply andb_prop in Hs. destruct Hs as [H1 H2].
    apply N.leb_le in H1, H2. destruct (H c Hc). lia.
Qed.
Lemma pb_string_ok s : (exists r, pb_string s = Ok r) <-> utf8 s.
Proof.
  rewrite <- existsb_surrogate. unfold pb_string. destruct (existsb surrogate s).
  - split; [intros [r H]; discriminate|discriminate].
  - split; [reflexivity|eauto].
Qed.
Lemma pb_uint32_ok z : (exists r, pb_uint32 z = Ok r) <-> u32 z.
Proof.
  unfold pb_uint32, u32. destruct (_ && _) eqn:E.
  - apply andb_prop in E. destruct E as [H1 H2]. apply Z.leb_le in H1. apply Z.ltb_lt in H2. split; [lia|eauto].
  - split; [intros [r H]; discriminate|]. intros [H1 H2]. apply Z.leb_le in H1. apply Z.ltb_lt in H2.
    rewrite H1, H2 in E. discriminate.
Qed.
Lemma pb_uint64_ok z : (exists r, pb_uint64 z = Ok r) <-> u64 z.
Proof.
  unfold pb_uint64, u64. destruct (_ && _) eqn:E.
  - apply andb_prop in E. destruct E as [H1 H2]. apply Z.leb_le in H1. apply Z.ltb_lt in H2. split; [lia|eauto].
  - split; [intros [r H]; discriminate|]. intros [H1 H2]. apply Z.leb_le in H1. apply Z.ltb_lt in H2.
    rewrite H1, H2 in E. discriminate.
Qed.
Lemma bind_ok {A B} (r : result A) (f : A -> B) : (exists y, bind r (fun x => Ok (f x)) = Ok y) <-> exists x, r = Ok x.
Proof.
  destruct r as [x|e]; cbn; split; intros [y H]; try discriminate; eauto.
Qed.
Lemma mapM_ok_iff {A B} (f : A -> result B) l : (exists ys, mapM f l = Ok ys) <-> forall x, In x l -> exists y, f x = Ok y.
Proof.
  induction l as [|x l IH]; cbn [mapM].
  - split; [intros _ x []|eauto].
  - split.
    + intros [ys H]. destruct (f x) as [y|] eqn:E; [|discriminate]. cbn [bind] in H.
      destruct (mapM f l) as [ys'|] eqn:E'; [|discriminate].
      intros z [<-|Hz]; [eauto|]. apply (proj1 IH); eauto.
    + intros H. destruct (H x (or_introl eq_refl)) as [y Hy]. rewrite Hy. cbn [bind].
      destruct (proj2 IH) as [ys Hys]; [intros z Hz; apply H; right; exact Hz|]. rewrite Hys. cbn [bind]. eauto.
Qed.

Lemma sends_string k s : sends (append_string k s) <-> utf8 s.
Proof. unfold sends. cbn [snd append_string]. unfold string_value. rewrite bind_ok. apply pb_string_ok. Qed.
Lemma sends_uint32 k z : sends (append_uint32 k z) <-> u32 z.
Proof. unfold sends. cbn [snd append_uint32]. unfold uint32_value. rewrite bind_ok. apply pb_uint32_ok. Qed.
Lemma sends_float k x : sends (append_float k x) <-> True.
Proof. unfold sends. cbn. split; [auto|]. intros _. unfold float_value. eauto. Qed.
Lemma sends_bool k x : sends (append_bool k x) <-> True.
Proof. unfold sends. cbn. split; [auto|]. intros _. unfold bool_value. eauto. Qed.
Lemma sends_strings k l : sends (append_strings k l) <-> forall s, In s l -> utf8 s.
Proof.
  unfold sends. cbn [snd append_strings]. unfold strings_value. rewrite bind_ok, mapM_ok_iff.
  split; intros H s Hs; apply pb_string_ok, H, Hs.
Qed.
Lemma enum_value_ok ty v : (exists g, enum_value ty v = Ok g) <-> utf8 ty /\ utf8 v.
Proof.
  unfold enum_value. rewrite <- !pb_string_ok. destruct (pb_string ty) as [t|]; cbn [bind].
  - rewrite bind_ok. split; [intros H; split; [eauto|exact H]|intros [_ H]; exact H].
  - split; [intros [g H]; discriminate|intros [[r H] _]; discriminate].
Qed.
Lemma sends_enum k ty v : existsb surrogate ty = false -> existsb surrogate v = false -> sends (append_enum k ty v) <-> True.
Proof.
  intros Ht Hv. split; [auto|]. intros _. unfold sends. cbn [snd append_enum]. apply enum_value_ok.
  rewrite <- !existsb_surrogate. auto.
Qed.
Ltac sends_member := apply sends_enum; vm_compute; reflexivity.
Lemma sends_strategy k x : sends (append_strategy k x) <-> True. Proof. destruct x; sends_member. Qed.
Lemma sends_kind k x : sends (append_kind k x) <-> True. Proof. destruct x; sends_member. Qed.
Lemma sends_narrow k x : sends (append_narrow k x) <-> True. Proof. destruct x; sends_member. Qed.
Lemma sends_filter k x : sends (append_filter k x) <-> True. Proof. destruct x; sends_member. Qed.
Lemma sends_source k x : sends (append_source k x) <-> True. Proof. destruct x; sends_member. Qed.
Lemma sends_adjusting k x : sends (append_adjusting k x) <-> True. Proof. destruct x; sends_member. Qed.
Lemma sends_undef k x : sends (append_undef k x) <-> True. Proof. destruct x; sends_member. Qed.
Lemma sends_repr k x : sends (append_enum k const_activities_repr_source_enum_name (repr_name x)) <-> True.
Proof. destruct x; sends_member. Qed.
Lemma sends_distance k x : sends (append_enum k const_distance_enum_name (distance_name x)) <-> True.
Proof. destruct x; sends_member. Qed.
Lemma sends_traces_repr k x : sends (append_enum k const_traces_repr_source_enum_name (traces_repr_name x)) <-> True.
Proof. destruct x; sends_member. Qed.
Lemma sends_opt k o : Forall sends (append_opt_string k o) <-> utf8_opt o.
Proof.
  destruct o; cbn [append_opt_string utf8_opt].
  - rewrite Forall_cons_iff, sends_string. split; [tauto|]. intros H. split; [exact H|constructor].
  - split; [auto|constructor].
Qed.
Lemma sends_pipeline k r : sends (append_pipeline k r) <-> exists g, r = Ok g.
Proof. unfold sends. cbn [snd append_pipeline]. apply bind_ok. Qed.

Lemma build_config_ok l : (exists c, build_config l = Ok c) <-> Forall sends l.
Proof.
  unfold build_config. rewrite mapM_ok_iff, Forall_forall.
  split; intros H x Hx; specialize (H x Hx); unfold sends in *; [apply bind_ok in H|apply bind_ok]; exact H.
Qed.
Lemma default_ok name l : (exists g, default_part name l = Ok g) <-> Forall sends l.
Proof. unfold default_part. rewrite bind_ok. apply build_config_ok. Qed.
Lemma complex_ok u keys name l : (exists g, complex_part u keys name l = Ok g) <-> Forall sends l.
Proof. unfold complex_part. rewrite bind_ok. apply build_config_ok. Qed.
Lemma Forall_nil_True : Forall sends [] <-> True.
Proof. split; [auto|constructor]. Qed.

Ltac all_sends :=
  rewrite ?Forall_app; repeat rewrite ?Forall_cons_iff, ?Forall_app;
  rewrite ?Forall_nil_True, ?sends_string, ?sends_uint32, ?sends_float, ?sends_bool, ?sends_strings, ?sends_strategy, ?sends_kind,
    ?sends_narrow, ?sends_filter, ?sends_source, ?sends_adjusting, ?sends_undef, ?sends_repr, ?sends_distance,
    ?sends_traces_repr, ?sends_opt, ?sends_pipeline.

Lemma tandem_ok maximal n class : (exists g, tandem_grpc maximal n class = Ok g) <-> u32 n /\ utf8_opt class.
Proof. unfold tandem_grpc. rewrite default_ok. all_sends. tauto. Qed.
Lemma repeats_ok k s class : (exists g, repeats_grpc k s class = Ok g) <-> utf8_opt class.
Proof. unfold repeats_grpc. rewrite default_ok. all_sends. tauto. Qed.
Lemma discover_ok n : (exists g, discover_activities_grpc n = Ok g) <-> u32 n.
Proof. unfold discover_activities_grpc. rewrite default_ok. all_sends. tauto. Qed.

Lemma leaf_ok_proof u l : (exists g, leaf_grpc u l = Ok g) <-> leaf_ok l.
Proof.
  destruct l; cbn [leaf_grpc leaf_ok]; unfold discover_activities_grpc, common_appends;
  try solve [rewrite default_ok; all_sends; tauto];
  try solve [rewrite complex_ok; all_sends; tauto];
  try solve [unfold simple_part; split; eauto];
  try solve [apply tandem_ok]; try solve [apply repeats_ok];
  try solve [split; [intros [g H]; discriminate H|intros []]].
  rewrite default_ok. all_sends.
  assert (E : (exists g, bind (patterns_part_grpc kind s max_length) (fun p =>
              bind (default_part const_discover_activities [append_uint32 const_activity_level level])
                (fun d => Ok [p; d])) = Ok g) <->
              (exists p, patterns_part_grpc kind s max_length = Ok p) /\ exists d, discover_activities_grpc level = Ok d).
  { fold (discover_activities_grpc level). destruct (patterns_part_grpc kind s max_length); cbn [bind].
    - rewrite bind_ok. split; [intros H; split; [eauto|exact H]|tauto].
    - split; [intros [g H]; discriminate|intros [[p H] _]; discriminate]. }
  rewrite E, discover_ok. destruct kind; cbn [patterns_part_grpc]; rewrite ?tandem_ok, ?repeats_ok; cbn [utf8_opt]; tauto.
Qed.

Lemma convert_parts_ok f l : (exists gs, convert_parts f l = Ok gs) <-> forall p, In p l -> exists g, f p = Ok g.
Proof. rewrite convert_parts_mapM. apply mapM_ok_iff. Qed.

Lemma inside_list_iff (P : part -> Prop) l :
  (forall q, inside q l -> P q) <-> forall p, In p l -> forall q, inside q [p] -> P q.
Proof.
  split.
  - intros H p Hp q Hq. apply H. eapply inside_up; eassumption.
  - intros H q Hq. apply inside_down in Hq. destruct Hq as [p [Hp Hq]]. exact (H p Hp q Hq).
Qed.

Lemma inside_split (P : part -> Prop) p :
  (forall q, inside q [p] -> P q) <-> P p /\ forall inner, holds p inner -> forall q, inside q inner -> P q.
Proof.
  split.
  - intros H. split; [apply H, inside_here; left; reflexivity|]. intros inner Hh q Hq. apply H.
    apply inside_single. right. eauto.
  - intros [Hp Hi] q Hq. apply inside_single in Hq. destruct Hq as [->|[inner [Hh Hq]]]; [exact Hp|eauto].
Qed.

Lemma convert_inside l : 
  Forall (fun p => (exists g, to_grpc p = Ok g) <-> forall q, inside q [p] -> part_ok q) l ->
  (exists gs, convert_parts to_grpc l = Ok gs) <-> forall q, inside q l -> part_ok q.
Proof.
  intros IH. rewrite Forall_forall in IH. rewrite convert_parts_ok, inside_list_iff.
  split; intros H p Hp; apply IH; try exact Hp; apply H, Hp.
Qed.

Lemma to_grpc_ok p : (exists g, to_grpc p = Ok g) <-> forall q, inside q [p] -> part_ok q.
Proof.
  induction p as [u l|u c l IH|u c|u s n l IH|u c l IH|u l IH|] using part_ind2; rewrite inside_split;
    try apply convert_inside in IH.
  - cbn [to_grpc part_ok]. rewrite leaf_ok_proof. split; [|tauto]. intros H. split; [exact H|]. intros inner Hh. inversion Hh.
  - assert (E : (forall inner, holds (PUntil u c (Some l)) inner -> forall q, inside q inner -> part_ok q) <->
                exists g, convert_parts to_grpc l = Ok g).
    { rewrite IH. split; [intros H; apply H; constructor|]. intros H inner Hh. inversion Hh; subst. exact H. }
    rewrite E. cbn [to_grpc part_ok]. rewrite default_ok. unfold until_appends. all_sends. tauto.
  - assert (E : (forall inner, holds (PUntil u c None) inner -> forall q, inside q inner -> part_ok q) <-> True).
    { split; [auto|]. intros _ inner Hh. inversion Hh. }
    rewrite E. cbn [to_grpc part_ok]. rewrite default_ok. unfold until_appends. all_sends. tauto.
  - assert (E : (forall inner, holds (PEachLog u s n l) inner -> forall q, inside q inner -> part_ok q) <->
                exists g, convert_parts to_grpc l = Ok g).
    { rewrite IH. split; [intros H; apply H; constructor|]. intros H inner Hh. inversion Hh; subst. exact H. }
    rewrite E. cbn [to_grpc part_ok]. rewrite default_ok. all_sends. tauto.
  - assert (E : (forall inner, holds (PLogDbscan u c l) inner -> forall q, inside q inner -> part_ok q) <->
                exists g, convert_parts to_grpc l = Ok g).
    { rewrite IH. split; [intros H; apply H; constructor|]. intros H inner Hh. inversion Hh; subst. exact H. }
    rewrite E. cbn [to_grpc part_ok]. rewrite complex_ok. all_sends. tauto.
  - cbn [to_grpc part_ok]. split; [|tauto]. intros [g H]. destruct (convert_parts to_grpc l); discriminate H.
  - cbn [to_grpc part_ok]. split; [|tauto]. intros [g H]. discriminate H.
Qed.

Lemma sendable_proof parts : (exists g, pipeline_grpc parts = Ok g) <-> forall p, inside p parts -> part_ok p.
Proof. unfold pipeline_grpc. apply convert_inside. apply Forall_forall. intros p _. apply to_grpc_ok. Qed.

(** Unknown keys leave no trace. *)
Lemma find_key_known k : find_key k = None <-> existsb (str_eqb k) (map fst backend_keys) = false.
Proof.
  unfold find_key. rewrite dget_None. rewrite <- Bool.not_true_iff_false, existsb_exists. split.
  - intros H [x [Hx E]]. apply H. apply str_eqb_eq in E. subst x. exact Hx.
  - intros H Hk. apply H. exists k. split; [exact Hk|]. apply str_eqb_refl.
Qed.
Lemma config_filtered config : forall d,
  read_config read_value config d = read_config read_value (filter (fun p => existsb (str_eqb (fst p)) (map fst backend_keys)) config) d.
Proof.
  induction config as [|[k v] rest IH]; intros d; [reflexivity|]. cbn [read_config filter fst]. destruct (find_key k) eqn:E.
  - destruct (existsb _ _) eqn:X; [|apply find_key_known in X; congruence]. cbn [read_config]. rewrite E. destruct (read_value v); [|reflexivity]. cbn [bind]. apply IH.
  - apply find_key_known in E. rewrite E. apply IH.
Qed.
