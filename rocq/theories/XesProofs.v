From Coq Require Import Decimal DecimalFacts DecimalZ.
From Verif Require Import Py PyFacts LogModel EqSpec TextModel TextSpec TextProofs XesModel XesSpec.

(* ---- integers ---- *)
Lemma read_show_uint u : read_uint (show_uint u) = Some u.
Proof. induction u as [|u IH|u IH|u IH|u IH|u IH|u IH|u IH|u IH|u IH|u IH]; cbn [show_uint read_uint]; try rewrite IH; reflexivity. Qed.

Lemma show_uint_nonempty u : u <> Nil -> show_uint u <> [].
Proof. destruct u; cbn; intros H; congruence. Qed.

Lemma show_uint_not_minus u c s : show_uint u = c :: s -> N.eqb c 45 = false.
Proof. destruct u; cbn; intros H; try discriminate; injection H as <- <-; reflexivity. Qed.

Lemma to_uint_nonnil p : Pos.to_uint p <> Nil.
Proof. apply DecimalPos.Unsigned.to_uint_nonnil. Qed.

Lemma to_int_nonnil z : match Z.to_int z with Pos u | Neg u => u <> Nil end.
Proof.
  destruct z as [|p|p]; cbn; try apply to_uint_nonnil; discriminate.
Qed.

Lemma parse_show_int z : parse_int (show_int z) = Ok z.
Proof.
  unfold show_int. pose proof (to_int_nonnil z) as Hn. pose proof (DecimalZ.of_to z) as Hz.
  destruct (Z.to_int z) as [u|u].
  - pose proof (show_uint_nonempty u Hn) as Hne. pose proof (read_show_uint u) as Hr. unfold parse_int.
    destruct (show_uint u) as [|c s] eqn:E; [congruence|]. rewrite (show_uint_not_minus u c s E). unfold read_digits. rewrite Hr, Hz. reflexivity.
  - unfold parse_int. cbn [N.eqb Pos.eqb]. unfold read_digits. pose proof (show_uint_nonempty u Hn) as Hne. rewrite read_show_uint.
    destruct (show_uint u); [congruence|]. rewrite Hz. reflexivity.
Qed.

(* ---- dict facts ---- *)
Section DictFacts.
  Context {V : Type}.
  Implicit Types (d items : dict pystr V).
  Definition over d items := fold_left (fun acc kv => dset str_eq_dec acc (fst kv) (snd kv)) items d.

  Lemma dget_over items : forall d k, NoDup (dkeys items) ->
    dget str_eq_dec (over d items) k = match dget str_eq_dec items k with Some v => Some v | None => dget str_eq_dec d k end.
  Proof.
    induction items as [|[a v] items IH]; intros d k Hn; [reflexivity|].
    inversion Hn as [|? ? Ha Hn']; subst. cbn [over fold_left fst snd]. fold (over (dset str_eq_dec d a v) items).
    rewrite IH by exact Hn'. cbn [dget]. destruct (str_eq_dec k a) as [->|Hk].
    - assert (dget str_eq_dec items a = None) as -> by (apply (dget_None str_eq_dec); exact Ha). apply dget_dset_same.
    - destruct (dget str_eq_dec items k); [reflexivity|]. apply dget_dset_other. congruence.
  Qed.

  Lemma over_NoDup items : forall d, NoDup (dkeys d) -> NoDup (dkeys (over d items)).
  Proof. induction items as [|[a v] items IH]; intros d H; [exact H|]. cbn. apply IH. apply dset_NoDup. exact H. Qed.

  Lemma dset_fresh d k v : ~ In k (dkeys d) -> dset str_eq_dec d k v = d ++ [(k, v)].
  Proof.
    induction d as [|[a w] d IH]; intros H; [reflexivity|]. cbn in *. destruct (str_eq_dec k a) as [->|]; [tauto|].
    rewrite IH by tauto. reflexivity.
  Qed.

  Lemma over_fresh items : forall d, NoDup (dkeys d ++ dkeys items) -> over d items = d ++ items.
  Proof.
    induction items as [|[a v] items IH]; intros d H; [rewrite app_nil_r; reflexivity|].
    cbn [over fold_left fst snd]. fold (over (dset str_eq_dec d a v) items). cbn [dkeys map fst] in H.
    assert (Ha : ~ In a (dkeys d)). { apply NoDup_remove_2 in H. intros Hin. apply H, in_or_app. left; exact Hin. }
    rewrite dset_fresh by exact Ha. rewrite IH; [rewrite <- app_assoc; reflexivity|].
    unfold dkeys in *. rewrite map_app, <- app_assoc. exact H.
  Qed.

  Lemma over_nil items : is_dict items -> over [] items = items.
  Proof. intros H. rewrite over_fresh; [reflexivity|exact H]. Qed.

  Lemma dget_filter (p : pystr * V -> bool) d k : NoDup (dkeys d) ->
    dget str_eq_dec (filter p d) k = match dget str_eq_dec d k with Some v => if p (k, v) then Some v else None | None => None end.
  Proof.
    induction d as [|[a v] d IH]; intros H; [reflexivity|]. inversion H as [|? ? Ha Hd]; subst. cbn [filter dget].
    destruct (str_eq_dec k a) as [->|Hk].
    - destruct (p (a, v)); cbn [dget]; [destruct (str_eq_dec a a); [reflexivity|congruence]|].
      rewrite IH by exact Hd. assert (dget str_eq_dec d a = None) as -> by (apply (dget_None str_eq_dec); exact Ha). reflexivity.
    - destruct (p (a, v)); cbn [dget]; [destruct (str_eq_dec k a); [congruence|]|]; apply IH; exact Hd.
  Qed.

  Lemma filter_keys_NoDup (p : pystr * V -> bool) d : NoDup (dkeys d) -> NoDup (dkeys (filter p d)).
  Proof.
    induction d as [|[a v] d IH]; intros H; [constructor|]. inversion H as [|? ? Ha Hd]; subst. cbn [filter].
    destruct (p (a, v)); [|apply IH; exact Hd]. cbn. constructor; [|apply IH; exact Hd].
    intros Hin. apply Ha. unfold dkeys in *. apply in_map_iff in Hin. destruct Hin as [[x y] [E Hin]]. cbn in E. subst x. apply filter_In in Hin.
    apply in_map_iff. exists (a, y). tauto.
  Qed.
End DictFacts.

Lemma dget_map {V W} (f : V -> W) (d : dict pystr V) k :
  dget str_eq_dec (map (fun kv => (fst kv, f (snd kv))) d) k = option_map f (dget str_eq_dec d k).
Proof. induction d as [|[a v] d IH]; [reflexivity|]. cbn. destruct (str_eq_dec k a); [reflexivity|exact IH]. Qed.
Lemma dkeys_map {V W} (f : V -> W) (d : dict pystr V) : dkeys (map (fun kv => (fst kv, f (snd kv))) d) = dkeys d.
Proof. unfold dkeys. rewrite map_map. reflexivity. Qed.

Section RT.
  Variables (parse_float parse_date : pystr -> result pystr) (veq : value -> value -> bool).

  Definition val_elem (k : pystr) (v : value) : xml :=
    Elem (match type_name v with Some t => t | None => [] end) [(attr_key, k); (attr_value, show_value v)] [].

  Lemma type_name_xes v : xes_type v -> exists t, type_name v = Some t.
  Proof. destruct v; cbn; intros H; try tauto; eauto. Qed.
  Lemma should_serialize_xes v : should_serialize v = true <-> xes_type v.
  Proof. destruct v; cbn; split; auto; discriminate. Qed.

  Lemma create_ok k v : xes_type v -> create_value_tag k v = Ok (val_elem k v).
  Proof. unfold create_value_tag, val_elem. destruct v; cbn; tauto. Qed.

  Lemma elem_is_value k v : xes_type v -> is_value_tag (val_elem k v) = true.
  Proof. destruct v; cbn [xes_type]; intros H; try tauto; reflexivity. Qed.

  Lemma elem_not k v : xes_type v ->
    let t := get_tag_wo_xmlns (tag_of (val_elem k v)) in
    str_eqb t tag_trace = false /\ str_eqb t tag_extension = false /\ str_eqb t tag_classifier = false /\ str_eqb t tag_event = false.
  Proof. destruct v; cbn [xes_type]; intros H; try tauto; repeat split; reflexivity. Qed.

  Lemma elem_parse k v : xes_type v -> stable parse_float parse_date v ->
    parse_value_tag parse_float parse_date (val_elem k v) = Ok (reread v).
  Proof.
    intros Hx Hs. unfold parse_value_tag.
    change (dgetitem str_eq_dec (attrib_of (val_elem k v)) attr_value) with (@Ok pystr (show_value v)). cbn [bind].
    destruct v; cbn [xes_type] in Hx; try (exfalso; exact Hx); unfold val_elem; cbn [type_name tag_of].
    - reflexivity.
    - change (bind (parse_int (show_int z)) (fun z0 => Ok (VInt z0)) = Ok (VInt z)). rewrite parse_show_int. reflexivity.
    - destruct b; reflexivity.
    - cbn [stable] in Hs. change (bind (parse_float repr) (fun r => Ok (VFloat r)) = Ok (VFloat repr)). rewrite Hs. reflexivity.
    - cbn [stable] in Hs. change (bind (parse_date iso) (fun r => Ok (VDate r)) = Ok (VDate iso)). rewrite Hs. reflexivity.
  Qed.

  Lemma elem_add d k v : xes_type v -> stable parse_float parse_date v ->
    add_value parse_float parse_date d (val_elem k v) = Ok (dset str_eq_dec d k (reread v)).
  Proof. intros Hx Hs. unfold add_value. rewrite elem_parse by assumption. reflexivity. Qed.

  Lemma elem_add_global d k v : add_global d (val_elem k v) = Ok (dset str_eq_dec d k (VStr (show_value v))).
  Proof. reflexivity. Qed.

  Lemma mapM_create items : (forall k v, In (k, v) items -> xes_type v) ->
    mapM (fun kv => create_value_tag (fst kv) (snd kv)) items = Ok (map (fun kv => val_elem (fst kv) (snd kv)) items).
  Proof. intros H. apply mapM_ok. intros [k v] Hin. apply create_ok. eapply H; exact Hin. Qed.

  Lemma loop_add items : forall d, (forall k v, In (k, v) items -> xes_type v /\ stable parse_float parse_date v) ->
    loopM (add_value parse_float parse_date) (map (fun kv => val_elem (fst kv) (snd kv)) items) d =
    Ok (over d (map (fun kv => (fst kv, reread (snd kv))) items)).
  Proof.
    induction items as [|[k v] items IH]; intros d H; [reflexivity|]. cbn [map fst snd]. rewrite loopM_cons.
    destruct (H k v (or_introl eq_refl)) as [Hx Hs]. rewrite elem_add by assumption. cbn [bind]. rewrite IH; [reflexivity|].
    intros k' v' Hin. apply (H k' v'). right; exact Hin.
  Qed.

  (** what is kept of a payload *)
  Definition kept_items (log : eventlog) entity (d : dict pystr value) :=
    filter (fun kv => negb (check_if_default_value veq log entity (fst kv) (snd kv)) && should_serialize (snd kv)) d.

  Lemma payload_ok log entity d : payload_elements veq log entity d = Ok (map (fun kv => val_elem (fst kv) (snd kv)) (kept_items log entity d)).
  Proof.
    unfold payload_elements. apply mapM_create. intros k v Hin. apply filter_In in Hin. destruct Hin as [_ H].
    apply andb_true_iff in H. apply should_serialize_xes. apply H.
  Qed.

  Definition reread_payload (log : eventlog) (globals : dict pystr (dict pystr value)) entity (d : dict pystr value) : dict pystr value :=
    over (from_defaults globals entity) (map (fun kv => (fst kv, reread (snd kv))) (kept_items log entity d)).

  Lemma from_defaults_eq globals scope : (forall g, In (scope, g) globals -> is_dict g) ->
    from_defaults globals scope = match dget str_eq_dec globals scope with Some g => g | None => [] end.
  Proof.
    intros H. unfold from_defaults. destruct (dget str_eq_dec globals scope) as [g|] eqn:E; [|reflexivity].
    apply over_nil. apply H. eapply dget_In. exact E.
  Qed.

  Lemma reread_expected log entity d :
    (forall n g, In (n, g) (l_globals log) -> is_dict g) -> is_dict d ->
    is_dict (reread_payload log (text_globals show_value (l_globals log)) entity d) /\
    forall k, dget str_eq_dec (reread_payload log (text_globals show_value (l_globals log)) entity d) k =
              expected show_value veq (dget str_eq_dec (l_globals log) entity) d k.
  Proof.
    intros Hg Hd. unfold reread_payload.
    assert (Ef : from_defaults (text_globals show_value (l_globals log)) entity =
                 match dget str_eq_dec (l_globals log) entity with Some g => map (fun kv => (fst kv, VStr (show_value (snd kv)))) g | None => [] end).
    { rewrite from_defaults_eq.
      - unfold text_globals. rewrite (dget_map (fun g : dict pystr value => map (fun kv : pystr * value => (fst kv, VStr (show_value (snd kv)))) g : dict pystr value)).
        destruct (dget str_eq_dec (l_globals log) entity); reflexivity.
      - intros g Hin. unfold text_globals in Hin. apply in_map_iff in Hin. destruct Hin as [[n g0] [E Hin]]. cbn in E. injection E as <- <-.
        unfold is_dict. rewrite (dkeys_map (fun v => VStr (show_value v))). eapply Hg; exact Hin. }
    assert (Hk : NoDup (dkeys (map (fun kv => (fst kv, reread (snd kv))) (kept_items log entity d)))).
    { rewrite (dkeys_map reread). apply filter_keys_NoDup. exact Hd. }
    split.
    - apply over_NoDup. rewrite Ef. destruct (dget str_eq_dec (l_globals log) entity) as [g|] eqn:E; [|constructor].
      rewrite (dkeys_map (fun v => VStr (show_value v))). eapply Hg. eapply dget_In. exact E.
    - intros k. rewrite dget_over by exact Hk. rewrite (dget_map reread). unfold kept_items. rewrite dget_filter by exact Hd.
      rewrite Ef. unfold expected.
      assert (Ed : dget str_eq_dec (match dget str_eq_dec (l_globals log) entity with Some g => map (fun kv => (fst kv, VStr (show_value (snd kv)))) g | None => [] end) k
                 = option_map (fun g => VStr (show_value g)) (match dget str_eq_dec (l_globals log) entity with Some g => dget str_eq_dec g k | None => None end)).
      { destruct (dget str_eq_dec (l_globals log) entity) as [g|]; [|reflexivity]. apply (dget_map (fun v => VStr (show_value v))). }
      rewrite Ed. destruct (dget str_eq_dec d k) as [v|]; [|reflexivity]. unfold check_if_default_value. cbn [fst snd].
      destruct (dget str_eq_dec (l_globals log) entity) as [g|].
      + destruct (dget str_eq_dec g k) as [dv|].
        * destruct v; cbn [should_serialize type_name]; try rewrite andb_true_r; try rewrite andb_false_r; try reflexivity; destruct (veq dv _); reflexivity.
        * destruct v; reflexivity.
      + destruct v; reflexivity.
  Qed.

  (* ---- reading a trace element ---- *)
  Definition event_elem (log : eventlog) (e : event) : xml :=
    Elem tag_event [] (map (fun kv => val_elem (fst kv) (snd kv)) (kept_items log tag_event e)).
  Definition trace_elem (log : eventlog) (t : trace) : xml :=
    Elem tag_trace [] (map (fun kv => val_elem (fst kv) (snd kv)) (kept_items log tag_trace (t_attrs t)) ++ map (event_elem log) (t_events t)).

  Lemma trace_element_ok log t : trace_element veq log t = Ok (trace_elem log t).
  Proof.
    unfold trace_element. rewrite payload_ok. cbn [bind].
    rewrite (mapM_ok _ (event_elem log)); [reflexivity|]. intros e _. rewrite payload_ok. reflexivity.
  Qed.

  Lemma kept_good log entity d : (forall k v, In (k, v) d -> stable parse_float parse_date v) ->
    forall k v, In (k, v) (kept_items log entity d) -> xes_type v /\ stable parse_float parse_date v.
  Proof.
    intros H k v Hin. apply filter_In in Hin. destruct Hin as [Hin Hb]. apply andb_true_iff in Hb. split; [apply should_serialize_xes; apply Hb|apply (H k v); exact Hin].
  Qed.

  Lemma loop_add_if items : forall d, (forall k v, In (k, v) items -> xes_type v /\ stable parse_float parse_date v) ->
    loopM (fun e c => if is_value_tag c then add_value parse_float parse_date e c else Ok e) (map (fun kv => val_elem (fst kv) (snd kv)) items) d =
    Ok (over d (map (fun kv => (fst kv, reread (snd kv))) items)).
  Proof.
    induction items as [|[k v] items IH]; intros d H; [reflexivity|]. cbn [map fst snd]. rewrite loopM_cons.
    destruct (H k v (or_introl eq_refl)) as [Hx Hs]. rewrite elem_is_value by exact Hx. rewrite elem_add by assumption. cbn [bind]. rewrite IH; [reflexivity|].
    intros k' v' Hin. apply (H k' v'). right; exact Hin.
  Qed.

  Lemma read_event_ok log globals e : (forall k v, In (k, v) e -> stable parse_float parse_date v) ->
    read_event parse_float parse_date globals (event_elem log e) = Ok (reread_payload log globals tag_event e).
  Proof.
    intros H. unfold read_event, event_elem. cbn [children_of]. rewrite loop_add_if by (apply kept_good; exact H). reflexivity.
  Qed.

  Lemma read_trace_ok log globals t :
    (forall k v, In (k, v) (t_attrs t) -> stable parse_float parse_date v) ->
    (forall e, In e (t_events t) -> forall k v, In (k, v) e -> stable parse_float parse_date v) ->
    read_trace parse_float parse_date globals (trace_elem log t) =
    Ok (mkTrace (map (reread_payload log globals tag_event) (t_events t)) (reread_payload log globals tag_trace (t_attrs t))).
  Proof.
    intros Ha He. unfold read_trace, trace_elem. cbn [children_of]. rewrite loopM_app.
    set (step := fun (st : list event * dict pystr value) (c : xml) => _).
    assert (L1 : forall items evs d, (forall k v, In (k, v) items -> xes_type v /\ stable parse_float parse_date v) ->
       loopM step (map (fun kv => val_elem (fst kv) (snd kv)) items) (evs, d) = Ok (evs, over d (map (fun kv => (fst kv, reread (snd kv))) items))).
    { induction items as [|[k v] items IH]; intros evs d H; [reflexivity|]. cbn [map fst snd]. rewrite loopM_cons.
      destruct (H k v (or_introl eq_refl)) as [Hx Hs]. unfold step at 1. rewrite elem_is_value by exact Hx. rewrite elem_add by assumption. cbn [bind].
      rewrite IH; [reflexivity|]. intros k' v' Hin. apply (H k' v'). right; exact Hin. }
    rewrite L1 by (apply kept_good; exact Ha). cbn [bind].
    assert (L2 : forall es evs d, (forall e, In e es -> forall k v, In (k, v) e -> stable parse_float parse_date v) ->
       loopM step (map (event_elem log) es) (evs, d) = Ok (evs ++ map (reread_payload log globals tag_event) es, d)).
    { induction es as [|e es IH]; intros evs d H; [cbn; rewrite app_nil_r; reflexivity|]. cbn [map]. rewrite loopM_cons. unfold step at 1.
      change (is_value_tag (event_elem log e)) with false. change (str_eqb (get_tag_wo_xmlns (tag_of (event_elem log e))) tag_event) with true. cbv iota.
      rewrite read_event_ok by (apply H; left; reflexivity). cbn [bind]. rewrite IH by (intros e' H'; apply H; right; exact H'). rewrite <- app_assoc. reflexivity. }
    rewrite L2 by exact He. reflexivity.
  Qed.
End RT.
