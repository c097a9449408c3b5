(** Proofs about logs the client writes and the backend reads. *)
From Coq Require Import Lia Bool.
From Verif Require Import Py PyFacts LogModel EqSpec HashModel EqProofs TextModel XesModel XesSpec XesProofs XesLogProofs TightSpec TightProofs WireModel
  RXesModel RXesProofs CrossModel CrossSpec.

(* ---- escapes ---- *)
Lemma et_unescape_char c s : unescape_go (et_escape_char c ++ s) None = match unescape_go s None with Some r => Some (c :: r) | None => None end.
Proof.
  unfold et_escape_char.
  destruct (N.eqb_spec c 38) as [->|H38]; [cbn; destruct (unescape_go s None); reflexivity|].
  repeat (match goal with |- context [N.eqb c ?k] => destruct (N.eqb_spec c k) as [->|]; [cbn; destruct (unescape_go s None); reflexivity|] end).
  cbn [app unescape_go]. destruct (N.eqb_spec c 38); [contradiction|]. reflexivity.
Qed.
Lemma et_unescape s : unescape (et_escape s) = Some s.
Proof.
  unfold unescape. induction s as [|c s IH]; [reflexivity|].
  unfold et_escape in *. cbn [flat_map]. rewrite et_unescape_char, IH. reflexivity.
Qed.
Lemma et_escape_inj a b : et_escape a = et_escape b -> a = b.
Proof. intros H. pose proof (et_unescape a) as A. rewrite H, et_unescape in A. congruence. Qed.
Lemma et_escape_escaped s : et_escaped s (et_escape s).
Proof.
  induction s as [|c s IH]; [constructor|]. unfold et_escape in *. cbn [flat_map]. unfold et_escape_char.
  repeat (match goal with |- context [N.eqb c ?k] => destruct (N.eqb_spec c k) as [->|]; [constructor; assumption|] end).
  apply et_same; [|assumption]. cbn. intuition congruence.
Qed.
Lemma et_escaped_escape s t : et_escaped s t -> t = et_escape s.
Proof.
  induction 1 as [|c s t H _ IH| | | | | | |]; [reflexivity| |subst; reflexivity..].
  subst. unfold et_escape. cbn [flat_map]. unfold et_escape_char at 2.
  cbn [In] in H. repeat (match goal with |- context [N.eqb c ?k] => destruct (N.eqb_spec c k) as [->|]; [tauto|] end). reflexivity.
Qed.
Lemma et_no_space s : ~ In 32%N s -> ~ In 32%N (et_escape s).
Proof.
  induction s as [|c s IH]; intros H; [exact H|]. unfold et_escape in *. cbn [flat_map]. rewrite in_app_iff. intros [A|A].
  - unfold et_escape_char in A.
    repeat (match type of A with context [N.eqb c ?k] => destruct (N.eqb_spec c k) as [->|]; [cbn in A; intuition discriminate|] end).
    destruct A as [A|[]]. apply H. left. exact A.
  - apply IH; [|exact A]. intros B. apply H. right. exact B.
Qed.
Lemma et_escape_join l : et_escape (join_space l) = join_space (map et_escape l).
Proof.
  induction l as [|x l IH]; [reflexivity|]. destruct l as [|y l]; [reflexivity|].
  change (join_space (x :: y :: l)) with (x ++ str " " ++ join_space (y :: l)).
  change (join_space (map et_escape (x :: y :: l))) with (et_escape x ++ str " " ++ join_space (map et_escape (y :: l))).
  rewrite <- IH. unfold et_escape. rewrite !flat_map_app. reflexivity.
Qed.

Section C79.
  Variables date f32 f64 : Type.
  Variables (parse_date : pystr -> option date) (parse_f64 : pystr -> option f64) (parse_uuid : pystr -> option uuid).
  Variable veq : value -> value -> bool.
  Notation pval := (pval date f32 f64).
  Notation xevent := (xevent date f32 f64).
  Notation xlog := (xlog date f32 f64).
  Notation extract := (extract_payload_value f32 parse_date parse_f64 parse_uuid).
  Notation bread_event := (RXesModel.read_event f32 parse_date parse_f64 parse_uuid).
  Notation bread_global := (RXesModel.read_global f32 parse_date parse_f64 parse_uuid).
  Notation items_of := (RXesProofs.items_of date f32 f64 parse_date parse_f64 parse_uuid).
  Notation trace_of := (RXesProofs.trace_of date f32 f64 parse_date parse_f64 parse_uuid).
  Notation prepend := (RXesProofs.prepend date f32 f64).
  Notation closing := (RXesProofs.closing date f32 f64).
  Notation understood := (CrossSpec.understood date f32 f64 parse_date parse_f64).
  Notation own := (CrossSpec.own date f32 f64 parse_date parse_f64 veq).
  Notation fallback := (CrossSpec.fallback date f32 f64 parse_date parse_f64).
  Notation upd := (fun p kv => update_event_data (fst kv) (snd kv) p).

  Definition vtok (kv : pystr * value) : list tok := to_text (val_elem (fst kv) (snd kv)).
  Lemma value_tag kv : xes_type (snd kv) -> exists n attrs, vtok kv = [TEmpty n attrs] /\
    read_payload_like_tag attrs = Fine (Some (fst kv, show_value (snd kv))) /\ extract n (show_value (snd kv)) = understood (snd kv).
  Proof.
    intros X. destruct kv as [k v]. cbn [fst snd] in *. unfold vtok, val_elem. cbn [to_text fst snd map]. eexists _, _. split; [reflexivity|]. split.
    - unfold read_payload_like_tag, attr_key, attr_value. cbn [last_attr fold_left].
      change (str_eqb (str "key") (str "key")) with true. change (str_eqb (str "value") (str "key")) with false.
      change (str_eqb (str "key") (str "value")) with false. change (str_eqb (str "value") (str "value")) with true.
      cbn iota. rewrite !et_unescape. reflexivity.
    - destruct v as [s|z|b|s|s|es|ids|o]; try destruct X; cbn [type_name show_value].
      + reflexivity.
      + change (option_map PInt64 (parse_i64 (show_int z)) = understood (VInt z)). rewrite parse_i64_show. unfold CrossSpec.understood.
        destruct (_ && _); reflexivity.
      + destruct b; reflexivity.
      + reflexivity.
      + reflexivity.
  Qed.
  Definition heard (kvs : list (pystr * value)) : list (pystr * pval) :=
    flat_map (fun kv => match understood (snd kv) with Some v => [(fst kv, v)] | None => [] end) kvs.

  Lemma event_tags kvs : (forall kv, In kv kvs -> xes_type (snd kv)) -> forall p r,
    bread_event p (flat_map vtok kvs ++ TEnd (str "event") :: r) = Fine (closing (fold_left upd (heard kvs) p), r).
  Proof.
    induction kvs as [|kv kvs IH]; intros X p r; [reflexivity|]. cbn [flat_map heard].
    destruct (value_tag kv (X kv (or_introl eq_refl))) as (n & attrs & E & R & V). rewrite E. cbn [app RXesModel.read_event]. rewrite R, V.
    rewrite fold_left_app. destruct (understood (snd kv)); cbn [fold_left fst snd]; apply IH; intros kv' H; apply X; right; exact H.
  Qed.
  Notation gfold := (fold_left (fun m kv => dset str_eq_dec m (fst kv) (snd kv))).
  Lemma global_tags kvs : (forall kv, In kv kvs -> xes_type (snd kv)) -> forall m r,
    bread_global (Some m) (flat_map vtok kvs ++ TEnd (str "global") :: r) = Fine (Some (gfold (heard kvs) m), r).
  Proof.
    induction kvs as [|kv kvs IH]; intros X m r; [reflexivity|]. cbn [flat_map heard].
    destruct (value_tag kv (X kv (or_introl eq_refl))) as (n & attrs & E & R & V). rewrite E. cbn [app RXesModel.read_global]. rewrite R, V.
    rewrite fold_left_app. rewrite IH by (intros kv' H; apply X; right; exact H). destruct (understood (snd kv)); reflexivity.
  Qed.
  Lemma global_written kvs r : (forall kv, In kv kvs -> xes_type (snd kv)) ->
    bread_global None (flat_map vtok kvs ++ TEnd (str "global") :: r) =
    Fine (match kvs with [] => None | _ => Some (gfold (heard kvs) []) end, r).
  Proof.
    intros X. destruct kvs as [|kv kvs]; [reflexivity|]. cbn [flat_map heard].
    destruct (value_tag kv (X kv (or_introl eq_refl))) as (n & attrs & E & R & V). rewrite E. cbn [app RXesModel.read_global]. rewrite R, V.
    rewrite fold_left_app. rewrite global_tags by (intros kv' H; apply X; right; exact H). destruct (understood (snd kv)); reflexivity.
  Qed.

  Lemma heard_keys kvs k : In k (dkeys (heard kvs)) -> In k (dkeys kvs).
  Proof.
    induction kvs as [|kv kvs IH]; [intros []|]. cbn [heard flat_map]. unfold dkeys in *. rewrite map_app, in_app_iff.
    intros [H|H]; [|right; apply IH; exact H]. destruct (understood (snd kv)); [|destruct H]. destruct H as [H|[]]. left. exact H.
  Qed.
  Lemma heard_NoDup kvs : NoDup (dkeys kvs) -> NoDup (dkeys (heard kvs)).
  Proof.
    induction kvs as [|kv kvs IH]; intros H; [constructor|]. inversion H as [|? ? H1 H2]; subst. cbn [heard flat_map].
    destruct (understood (snd kv)); [|apply IH; exact H2]. cbn. constructor; [|apply IH; exact H2].
    intros A. apply H1. apply heard_keys. exact A.
  Qed.
  Lemma dget_heard kvs k : NoDup (dkeys kvs) ->
    dget str_eq_dec (heard kvs) k = match dget str_eq_dec kvs k with Some v => understood v | None => None end.
  Proof.
    induction kvs as [|[a v] kvs IH]; intros H; [reflexivity|]. inversion H as [|? ? H1 H2]; subst. cbn [heard flat_map fst snd].
    cbn [dget]. destruct (str_eq_dec k a) as [->|N].
    - destruct (understood v) eqn:E; cbn [app dget].
      + destruct (str_eq_dec a a); [reflexivity|contradiction].
      + apply dget_None. intros A. apply H1. apply heard_keys. exact A.
    - destruct (understood v); cbn [app dget]; [destruct (str_eq_dec k a); [contradiction|]|]; apply IH; exact H2.
  Qed.

  (* ---- one event ---- *)
  Definition kept log scope d := kept_items veq log scope d.
  Lemma kept_xes log scope d kv : In kv (kept log scope d) -> xes_type (snd kv).
  Proof. intros H. apply filter_In in H. destruct H as [_ H]. apply andb_true_iff in H. apply should_serialize_xes, H. Qed.
  Lemma kept_iff log scope d k v : In (k, v) (kept log scope d) <-> In (k, v) d /\ in_file veq log scope k v.
  Proof.
    unfold kept, kept_items. rewrite filter_In. cbn [fst snd]. unfold in_file.
    change (declared veq (l_globals log) scope k v) with (check_if_default_value veq log scope k v).
    rewrite andb_true_iff, negb_true_iff, should_serialize_xes. tauto.
  Qed.
  Lemma kept_NoDup log scope d : NoDup (dkeys d) -> NoDup (dkeys (kept log scope d)).
  Proof.
    unfold kept, kept_items, dkeys. induction d as [|kv d IH]; intros H; [constructor|]. inversion H as [|? ? H1 H2]; subst. cbn [filter].
    destruct (_ && _); [|apply IH; exact H2]. cbn [map]. constructor; [|apply IH; exact H2].
    intros A. apply H1. apply in_map_iff in A. destruct A as [x [E A]]. apply filter_In in A. rewrite <- E. apply in_map, A.
  Qed.
  Lemma kept_get log e k : NoDup (dkeys e) ->
    dget str_eq_dec (heard (kept log (str "event") e)) k = own log e k.
  Proof.
    intros ND. rewrite dget_heard by (apply kept_NoDup; exact ND). unfold CrossSpec.own.
    destruct (dget str_eq_dec (kept log (str "event") e) k) as [v|] eqn:E.
    - apply dget_In in E. apply kept_iff in E. destruct E as [E [_ F]]. apply (In_dget str_eq_dec) in E; [|exact ND]. rewrite E, F. reflexivity.
    - apply dget_None in E. destruct (dget str_eq_dec e k) as [v|] eqn:D; [|reflexivity]. apply dget_In in D.
      destruct (declared veq (l_globals log) (str "event") k v) eqn:F; [reflexivity|].
      assert (Q : ~ xes_type v).
      { intros Q. apply E. apply (in_map fst (kept log (str "event") e) (k, v)). apply kept_iff. split; [exact D|split; [exact Q|exact F]]. }
      destruct v; try reflexivity; exfalso; apply Q; exact I.
  Qed.

  Definition read_back (log : eventlog) (g : dict pystr (dict pystr pval)) (e : event) : option xevent :=
    match kept log (str "event") e with
    | [] => None
    | kvs => closing (fold_left upd (heard kvs) (defaults g))
    end.
  Lemma trace_events_c log g es : forall r,
    trace_of g (flat_map to_text (map (event_elem veq log) es) ++ TEnd (str "trace") :: r) =
    Fine (flat_map (fun e => match read_back log g e with Some e' => [e'] | None => [] end) es, r).
  Proof.
    induction es as [|e es IH]; intros r; [reflexivity|]. cbn [map flat_map]. rewrite <- app_assoc.
    set (rest := flat_map to_text (map (event_elem veq log) es) ++ TEnd (str "trace") :: r) in *.
    assert (S : forall t, trace_of g (TEmpty (str "event") t :: rest) = trace_of g rest).
    { intros t. unfold RXesProofs.trace_of at 1.
      change (RXesModel.read_trace f32 parse_date parse_f64 parse_uuid (S (length (TEmpty (str "event") t :: rest))) g (TEmpty (str "event") t :: rest))
        with (RXesModel.read_trace f32 parse_date parse_f64 parse_uuid (length (TEmpty (str "event") t :: rest)) g rest).
      apply (RXesProofs.trace_fuel date f32 f64). cbn [length]. lia. }
    unfold event_elem at 1. unfold read_back at 1. change (kept_items veq log tag_event e) with (kept log (str "event") e). change tag_event with (str "event").
    destruct (kept log (str "event") e) as [|kv kvs] eqn:K.
    - cbn [map to_text app]. rewrite S. unfold rest. rewrite IH. reflexivity.
    - assert (X : forall x, In x (kv :: kvs) -> xes_type (snd x)) by (intros x Hx; rewrite <- K in Hx; eapply kept_xes; exact Hx).
      assert (T : to_text (Elem (str "event") [] (map (fun kv0 => val_elem (fst kv0) (snd kv0)) (kv :: kvs))) =
                  TStart (str "event") [] :: flat_map vtok (kv :: kvs) ++ [TEnd (str "event")]).
      { cbn [to_text map]. f_equal. f_equal. cbn [flat_map]. f_equal. rewrite flat_map_concat_map, map_map. unfold vtok. rewrite <- flat_map_concat_map. reflexivity. }
      rewrite T. cbn [app]. rewrite (RXesProofs.trace_start date f32 f64). rewrite <- app_assoc. cbn [app].
      rewrite event_tags by exact X. unfold rest. rewrite IH. destruct (closing _); reflexivity.
  Qed.
  Lemma trace_skips g kvs : (forall kv, In kv kvs -> xes_type (snd kv)) -> forall r, trace_of g (flat_map vtok kvs ++ r) = trace_of g r.
  Proof.
    induction kvs as [|kv kvs IH]; intros X r; [reflexivity|]. cbn [flat_map].
    destruct (value_tag kv (X kv (or_introl eq_refl))) as (n & attrs & E & _). rewrite E. cbn [app].
    rewrite <- (IH (fun kv' H => X kv' (or_intror H)) r). set (rest := flat_map vtok kvs ++ r).
    unfold RXesProofs.trace_of at 1.
    change (RXesModel.read_trace f32 parse_date parse_f64 parse_uuid (S (length (TEmpty n attrs :: rest))) g (TEmpty n attrs :: rest))
      with (RXesModel.read_trace f32 parse_date parse_f64 parse_uuid (length (TEmpty n attrs :: rest)) g rest).
    apply (RXesProofs.trace_fuel date f32 f64). cbn [length]. lia.
  Qed.

  (* ---- items ---- *)
  Definition trace_b log (t : trace) : bool :=
    match kept log (str "trace") (t_attrs t), t_events t with [], [] => false | _, _ => true end.
  Lemma items_traces_c log g ts : forall r, items_of g (flat_map to_text (map (trace_elem veq log) ts) ++ r) =
    prepend (map (fun t => ITrace (flat_map (fun e => match read_back log g e with Some e' => [e'] | None => [] end) (t_events t))) (filter (trace_b log) ts)) (items_of g r).
  Proof.
    induction ts as [|t ts IH]; intros r; [symmetry; apply prepend_nil|]. cbn [map flat_map]. rewrite <- app_assoc.
    set (rest := flat_map to_text (map (trace_elem veq log) ts) ++ r) in *.
    assert (T : to_text (trace_elem veq log t) = if trace_b log t
        then TStart (str "trace") [] :: (flat_map vtok (kept log (str "trace") (t_attrs t)) ++ flat_map to_text (map (event_elem veq log) (t_events t))) ++ [TEnd (str "trace")]
        else [TEmpty (str "trace") []]).
    { unfold trace_elem, trace_b. change (kept_items veq log tag_trace (t_attrs t)) with (kept log (str "trace") (t_attrs t)). change tag_trace with (str "trace").
      assert (F : flat_map to_text (map (fun kv => val_elem (fst kv) (snd kv)) (kept log (str "trace") (t_attrs t)) ++ map (event_elem veq log) (t_events t)) =
         flat_map vtok (kept log (str "trace") (t_attrs t)) ++ flat_map to_text (map (event_elem veq log) (t_events t))).
      { rewrite flat_map_app. f_equal. rewrite flat_map_concat_map, map_map. unfold vtok. rewrite <- flat_map_concat_map. reflexivity. }
      rewrite <- F. cbn [to_text map]. destruct (kept log (str "trace") (t_attrs t)) as [|kv kvs]; [destruct (t_events t) as [|e es]; reflexivity|reflexivity]. }
    rewrite T. cbn [filter]. destruct (trace_b log t) eqn:B.
    - cbn [app]. rewrite (RXesProofs.items_start date f32 f64). rewrite <- !app_assoc. cbn [app].
      rewrite trace_skips by (intros kv H; eapply kept_xes; exact H). rewrite trace_events_c. unfold rest. rewrite IH. cbn [map].
      destruct (items_of g r); reflexivity.
    - cbn [app]. rewrite (RXesProofs.items_empty date f32 f64). change (try_read_tag f32 parse_date parse_f64 parse_uuid (str "trace") []) with (@Fine (option (item date f32 f64)) None).
      cbn iota. unfold rest. apply IH.
  Qed.

  Definition ext_of (kv : pystr * dict pystr pystr) : list xext :=
    match dget str_eq_dec (snd kv) (str "prefix"), dget str_eq_dec (snd kv) (str "uri") with
    | Some p, Some u => [mkXExt (et_escape (fst kv)) (et_escape p) (et_escape u)]
    | _, _ => []
    end.
  Lemma last_attr_get (d : dict pystr pystr) k : NoDup (dkeys d) ->
    last_attr k (map (fun kv => Some (fst kv, et_escape (snd kv))) d) = option_map et_escape (dget str_eq_dec d k).
  Proof.
    intros ND. unfold last_attr.
    assert (G : forall acc, fold_left (fun acc a => match a with Some (k0, v) => if str_eqb k0 k then Some v else acc | None => acc end)
        (map (fun kv : pystr * pystr => Some (fst kv, et_escape (snd kv))) d) acc = match dget str_eq_dec d k with Some v => Some (et_escape v) | None => acc end).
    { induction d as [|[a v] d IH]; intros acc; [reflexivity|]. inversion ND as [|? ? H1 H2]; subst. cbn [map fold_left fst snd dget].
      rewrite IH by exact H2. destruct (str_eq_dec k a) as [->|N].
      - assert (dget str_eq_dec d a = None) as -> by (apply dget_None; exact H1). rewrite str_eqb_refl. reflexivity.
      - assert (str_eqb a k = false) as -> by (apply str_eqb_neq; congruence). reflexivity. }
    rewrite G. destruct (dget str_eq_dec d k); reflexivity.
  Qed.
  Lemma no_attr_error (d : dict pystr pystr) :
    existsb (fun a : option (pystr * pystr) => match a with None => true | _ => false end) (map (fun kv => Some (fst kv, et_escape (snd kv))) d) = false.
  Proof. induction d as [|kv d IH]; [reflexivity|exact IH]. Qed.
  (** Tags that hold no value. *)
  Lemma no_property n (d : dict pystr pystr) : (forall v, extract n v = None) -> NoDup (dkeys d) ->
    try_read_property f32 parse_date parse_f64 parse_uuid n (map (fun kv => Some (fst kv, et_escape (snd kv))) d) = Fine None.
  Proof.
    intros E ND. unfold try_read_property, read_payload_like_tag. rewrite !last_attr_get by exact ND.
    destruct (dget str_eq_dec d (str "key")), (dget str_eq_dec d (str "value")); cbn [option_map]; try reflexivity.
    rewrite !et_unescape, E. reflexivity.
  Qed.

  Lemma items_exts_c g xs : (forall n c, In (n, c) xs -> NoDup (dkeys c) /\ ~ In (str "name") (dkeys c)) -> forall r,
    items_of g (flat_map to_text (map ext_elem xs) ++ r) = prepend (map IExtension (flat_map ext_of xs)) (items_of g r).
  Proof.
    induction xs as [|[n c] xs IH]; intros H r; [symmetry; apply prepend_nil|].
    cbn [map flat_map]. rewrite <- app_assoc. set (rest := flat_map to_text (map ext_elem xs) ++ r) in *.
    destruct (H n c (or_introl eq_refl)) as [D N].
    assert (A : set_all [(ext_name, n)] c = (str "name", n) :: c).
    { change (set_all [(ext_name, n)] c) with (over [(ext_name, n)] c). rewrite over_fresh; [reflexivity|]. constructor; [exact N|exact D]. }
    unfold ext_elem at 1. cbn [fst snd]. rewrite A. change tag_extension with (str "extension"). cbn [to_text app].
    rewrite (RXesProofs.items_empty date f32 f64). unfold try_read_tag. change (str_eqb (str "extension") (str "extension")) with true. cbn iota.
    unfold try_read_extension. rewrite no_attr_error.
    assert (ND : NoDup (dkeys ((str "name", n) :: c))) by (constructor; [exact N|exact D]).
    rewrite !last_attr_get by exact ND.
    assert (G1 : dget str_eq_dec ((str "name", n) :: c) (str "name") = Some n) by reflexivity.
    assert (G2 : dget str_eq_dec ((str "name", n) :: c) (str "prefix") = dget str_eq_dec c (str "prefix")) by reflexivity.
    assert (G3 : dget str_eq_dec ((str "name", n) :: c) (str "uri") = dget str_eq_dec c (str "uri")) by reflexivity.
    rewrite G1, G2, G3. pose proof (no_property (str "extension") ((str "name", n) :: c) (fun v => eq_refl) ND) as NP.
    set (am := map _ ((str "name", n) :: c)) in *. clearbody am. unfold ext_of at 1. cbn [fst snd].
    assert (IH' : items_of g rest = prepend (map IExtension (flat_map ext_of xs)) (items_of g r)).
    { apply IH. intros n' c' Hi. apply (H n' c'). right. exact Hi. }
    destruct (dget str_eq_dec c (str "prefix")) as [p|], (dget str_eq_dec c (str "uri")) as [u|]; cbn [option_map app map].
    - rewrite IH'. destruct (items_of g r); reflexivity.
    - rewrite NP. exact IH'.
    - rewrite NP. exact IH'.
    - rewrite NP. exact IH'.
  Qed.
  Definition cls_of (kv : pystr * list pystr) : xcls := mkXCls (et_escape (fst kv)) (map et_escape (snd kv)).
  Lemma items_cls_c g xs : (forall n ks, In (n, ks) xs -> ks <> [] /\ forall k, In k ks -> ~ In 32%N k) -> forall r,
    items_of g (flat_map to_text (map cls_elem xs) ++ r) = prepend (map (fun x => IClassifier (cls_of x)) xs) (items_of g r).
  Proof.
    induction xs as [|[n ks] xs IH]; intros H r; [symmetry; apply prepend_nil|].
    cbn [map flat_map]. rewrite <- app_assoc. set (rest := flat_map to_text (map cls_elem xs) ++ r) in *.
    destruct (H n ks (or_introl eq_refl)) as [D N].
    assert (T : to_text (cls_elem (n, ks)) = [TEmpty (str "classifier") [Some (str "name", et_escape n); Some (str "keys", et_escape (join_space ks))]]) by reflexivity.
    rewrite T. cbn [app].
    rewrite (RXesProofs.items_empty date f32 f64). unfold try_read_tag. change (str_eqb (str "classifier") (str "extension")) with false.
    change (str_eqb (str "classifier") (str "classifier")) with true. cbn iota.
    assert (C : try_read_classifier [Some (str "name", et_escape n); Some (str "keys", et_escape (join_space ks))] = Some (cls_of (n, ks))).
    { unfold try_read_classifier. cbn [last_attr fold_left].
      change (str_eqb (str "name") (str "name")) with true. change (str_eqb (str "keys") (str "name")) with false.
      change (str_eqb (str "name") (str "keys")) with false. change (str_eqb (str "keys") (str "keys")) with true. cbn iota.
      rewrite et_escape_join, split_join_space; [reflexivity| |].
      - destruct ks; [contradiction|discriminate].
      - intros k Hk. apply in_map_iff in Hk. destruct Hk as (k' & <- & Hk). apply et_no_space, N, Hk. }
    rewrite C. cbn [option_map]. unfold rest. rewrite IH by (intros n' c' Hi; apply (H n' c'); right; exact Hi).
    destruct (items_of g r); reflexivity.
  Qed.
  Lemma items_props_c g xs : forall r, items_of g (flat_map to_text (map prop_elem xs) ++ r) = items_of g r.
  Proof.
    induction xs as [|[k v] xs IH]; intros r; [reflexivity|].
    cbn [map flat_map]. rewrite <- app_assoc. set (rest := flat_map to_text (map prop_elem xs) ++ r) in *.
    unfold prop_elem at 1. cbn [to_text fst snd map app]. rewrite (RXesProofs.items_empty date f32 f64).
    unfold try_read_tag. change (str_eqb tag_string (str "extension")) with false. change (str_eqb tag_string (str "classifier")) with false. cbn iota.
    unfold try_read_property, read_payload_like_tag. cbn [last_attr fold_left].
    destruct (str_eqb k (str "key")) eqn:E1, (str_eqb k (str "value")) eqn:E2; cbn iota; try (unfold rest; apply IH).
    exfalso. apply str_eqb_eq in E1, E2. subst. discriminate.
  Qed.

  Definition globals_c (gs : dict pystr (dict pystr value)) : list (pystr * dict pystr pval) :=
    flat_map (fun sc => match snd sc with [] => [] | kvs => [(et_escape (fst sc), gfold (heard kvs) [])] end) gs.
  Lemma items_globals_c gs : (forall n d, In (n, d) gs -> forall k v, In (k, v) d -> xes_type v) -> forall g r,
    NoDup (map fst gs) -> (forall s, In s (map fst gs) -> ~ In (et_escape s) (dkeys g)) ->
    items_of g (flat_map to_text (map global_elem gs) ++ r) =
    prepend (map (fun sd => IGlobal (fst sd) (snd sd)) (globals_c gs)) (items_of (gfold (globals_c gs) g) r).
  Proof.
    induction gs as [|[s kvs] gs IH]; intros X g r ND F; [symmetry; apply prepend_nil|]. cbn [map flat_map]. rewrite <- app_assoc.
    inversion ND as [|? ? Hs ND']; subst. set (rest := flat_map to_text (map global_elem gs) ++ r) in *.
    assert (X' : forall n d, In (n, d) gs -> forall k v, In (k, v) d -> xes_type v) by (intros n d Hi; apply (X n d); right; exact Hi).
    unfold global_elem at 1. cbn [fst snd]. change tag_global with (str "global"). change attr_scope with (str "scope").
    destruct kvs as [|kv kvs].
    - cbn [map to_text app fst snd]. rewrite (RXesProofs.items_empty date f32 f64). unfold try_read_tag.
      change (str_eqb (str "global") (str "extension")) with false. change (str_eqb (str "global") (str "classifier")) with false. cbn iota.
      assert (P : try_read_property f32 parse_date parse_f64 parse_uuid (str "global") [Some (str "scope", et_escape s)] = Fine None) by reflexivity.
      rewrite P. unfold rest. rewrite IH; [reflexivity|exact X'|exact ND'|]. intros s' H. apply F. right. exact H.
    - assert (T : to_text (Elem (str "global") [(str "scope", s)] (map (fun kv0 => val_elem (fst kv0) (snd kv0)) (kv :: kvs))) =
                  TStart (str "global") [Some (str "scope", et_escape s)] :: flat_map vtok (kv :: kvs) ++ [TEnd (str "global")]).
      { cbn [to_text map fst snd]. f_equal. f_equal. cbn [flat_map]. f_equal. rewrite flat_map_concat_map, map_map. unfold vtok. rewrite <- flat_map_concat_map. reflexivity. }
      rewrite T. cbn [app]. rewrite (RXesProofs.items_global date f32 f64). rewrite <- app_assoc. cbn [app].
      match goal with |- context [last_attr (str "scope") ?a] => change (last_attr (str "scope") a) with (Some (et_escape s)) end. cbn iota.
      rewrite global_written by (intros [k v] Hi; eapply (X s); [left; reflexivity|exact Hi]).
      assert (M : dmem str_eq_dec g (et_escape s) = false).
      { destruct (dmem str_eq_dec g (et_escape s)) eqn:E; [|reflexivity]. apply dmem_In in E. exfalso. eapply F; [left; reflexivity|exact E]. }
      rewrite M. unfold rest. rewrite IH; [|exact X'|exact ND'|].
      + cbn [globals_c flat_map snd fst app map fold_left]. destruct (items_of _ r); reflexivity.
      + intros s' H A. apply dset_In_keys in A. destruct A as [A|A].
        * apply et_escape_inj in A. subst. contradiction.
        * eapply F; [right; exact H|exact A].
  Qed.

  (* ---- globals ---- *)
  Lemma globals_c_keys gs t : In t (map fst (globals_c gs)) -> exists s d, t = et_escape s /\ In (s, d) gs /\ d <> [].
  Proof.
    induction gs as [|[s d] gs IH]; [intros []|]. cbn [globals_c flat_map fst snd]. rewrite map_app, in_app_iff. intros [H|H].
    - destruct d as [|kv d]; [destruct H|]. destruct H as [<-|[]]. exists s, (kv :: d). split; [reflexivity|]. split; [left; reflexivity|discriminate].
    - destruct (IH H) as (s' & d' & A & B & C). exists s', d'. split; [exact A|]. split; [right; exact B|exact C].
  Qed.
  Lemma globals_c_NoDup gs : NoDup (map fst gs) -> NoDup (map fst (globals_c gs)).
  Proof.
    induction gs as [|[s d] gs IH]; intros H; [constructor|]. inversion H as [|? ? H1 H2]; subst. cbn [globals_c flat_map fst snd].
    destruct d as [|kv d]; [apply IH; exact H2|]. cbn [app map fst]. constructor; [|apply IH; exact H2].
    intros A. apply globals_c_keys in A. destruct A as (s' & d' & A & B & _). apply et_escape_inj in A. subst s'. apply H1. apply (in_map fst _ _ B).
  Qed.
  Lemma globals_c_get gs s : NoDup (map fst gs) ->
    dget str_eq_dec (globals_c gs) (et_escape s) =
    match dget str_eq_dec gs s with Some (kv :: d) => Some (gfold (heard (kv :: d)) []) | _ => None end.
  Proof.
    induction gs as [|[a d] gs IH]; intros H; [reflexivity|]. inversion H as [|? ? H1 H2]; subst. cbn [globals_c flat_map fst snd dget].
    destruct (str_eq_dec s a) as [->|N].
    - destruct d as [|kv d].
      + apply dget_None. intros A. apply globals_c_keys in A. destruct A as (s' & d' & A & B & _). apply et_escape_inj in A. subst s'. apply H1. apply (in_map fst _ _ B).
      + cbn [app dget]. destruct (str_eq_dec (et_escape a) (et_escape a)); [reflexivity|contradiction].
    - destruct d as [|kv d]; [apply IH; exact H2|]. cbn [app dget].
      destruct (str_eq_dec (et_escape s) (et_escape a)) as [E|_]; [apply et_escape_inj in E; contradiction|]. apply IH. exact H2.
  Qed.
  Definition globals_read (gs : dict pystr (dict pystr value)) : dict pystr (dict pystr pval) := gfold (globals_c gs) [].
  Lemma globals_read_get gs s : NoDup (dkeys gs) -> dget str_eq_dec (globals_read gs) (et_escape s) =
    match dget str_eq_dec gs s with Some (kv :: d) => Some (gfold (heard (kv :: d)) []) | _ => None end.
  Proof.
    intros H. unfold globals_read. rewrite dget_fold_dset by (apply globals_c_NoDup; exact H). rewrite globals_c_get by exact H.
    destruct (dget str_eq_dec gs s) as [[|kv d]|]; reflexivity.
  Qed.
  Lemma heard_fold d k : NoDup (dkeys d) ->
    dget str_eq_dec (gfold (heard d) []) k = match dget str_eq_dec d k with Some v => understood v | None => None end.
  Proof. intros H. rewrite dget_fold_dset by (apply heard_NoDup; exact H). rewrite dget_heard by exact H. destruct (dget str_eq_dec d k) as [v|]; [destruct (understood v)|]; reflexivity. Qed.

  (* ---- one event, as a fact ---- *)
  Section Ev.
    Variable log : eventlog.
    Hypothesis G : is_dict (l_globals log).
    Hypothesis GV : forall n g, In (n, g) (l_globals log) -> is_dict g.
    Notation D := (defaults (globals_read (l_globals log))).
    Lemma defaults_facts : p_name D = a_text _ _ _ (fallback log (str "concept:name")) /\ p_date D = a_date _ _ _ (fallback log (str "time:timestamp")) /\
      ~ In (str "concept:name") (dkeys (p_payload D)) /\ ~ In (str "time:timestamp") (dkeys (p_payload D)) /\
      forall k, k <> str "concept:name" -> k <> str "time:timestamp" -> dget str_eq_dec (p_payload D) k = fallback log k.
    Proof.
      unfold defaults, CrossSpec.fallback.
      pose proof (globals_read_get (l_globals log) (str "event") G) as E. change (et_escape (str "event")) with (str "event") in E. rewrite E.
      destruct (dget str_eq_dec (l_globals log) (str "event")) as [d|] eqn:F; [|repeat (split; auto)].
      assert (ND : NoDup (dkeys d)) by (apply dget_In in F; exact (GV _ _ F)).
      destruct d as [|kv d]; [repeat (split; auto)|].
      assert (N2 : NoDup (map fst (gfold (heard (kv :: d)) []))) by (apply fold_dset_NoDup; constructor).
      rewrite (upd_name date f32 f64) by exact N2. rewrite (upd_date date f32 f64) by exact N2. rewrite !heard_fold by exact ND. cbn [p_name p_date p_payload].
      split; [destruct (dget _ (kv :: d) (str "concept:name")) as [v|]; [destruct (understood v) as [[]|]|]; reflexivity|].
      split; [destruct (dget _ (kv :: d) (str "time:timestamp")) as [v|]; [destruct (understood v) as [[]|]|]; reflexivity|].
      split; [apply (upd_special date f32 f64); [left; reflexivity|intros []]|]. split; [apply (upd_special date f32 f64); [right; reflexivity|intros []]|].
      intros k K1 K2. rewrite (upd_payload date f32 f64) by assumption. rewrite heard_fold by exact ND. cbn [p_payload]. change (dget str_eq_dec (@nil (pystr * pval)) k) with (@None pval).
      destruct (dget str_eq_dec (kv :: d) k) as [v|]; [destruct (understood v)|]; reflexivity.
    Qed.
    Lemma blank_kept e : blank veq log e <-> kept log (str "event") e = [].
    Proof.
      split.
      - intros B. destruct (kept log (str "event") e) as [|[k v] l] eqn:E; [reflexivity|]. exfalso.
        assert (A : In (k, v) (kept log (str "event") e)) by (rewrite E; left; reflexivity). apply kept_iff in A. destruct A as [A1 A2]. exact (B k v A1 A2).
      - intros E k v A B. assert (C : In (k, v) (kept log (str "event") e)) by (apply kept_iff; split; assumption). rewrite E in C. destruct C.
    Qed.
    Notation arrives := (CrossSpec.arrives date f32 f64 parse_date parse_f64 veq).
    Notation dropped := (CrossSpec.dropped date f32 f64 parse_date parse_f64 veq).
    Lemma event_fact e : is_dict e ->
      match read_back log (globals_read (l_globals log)) e with Some e' => arrives log e e' | None => dropped log e end.
    Proof.
      intros ND. unfold read_back. destruct (kept log (str "event") e) as [|kv0 l0] eqn:K.
      - left. apply blank_kept. exact K.
      - rewrite <- K. assert (NB : ~ blank veq log e) by (intros B; apply blank_kept in B; congruence).
        pose proof (heard_NoDup _ (kept_NoDup log (str "event") e ND)) as N2.
        destruct defaults_facts as (D1 & D2 & D3 & D4 & D5).
        set (P := fold_left upd (heard (kept log (str "event") e)) D).
        assert (P1 : p_name P = name_read date f32 f64 parse_date parse_f64 veq log e).
        { unfold P. rewrite (upd_name date f32 f64) by exact N2. rewrite kept_get by exact ND. rewrite D1. unfold name_read, first_of.
          destruct (own log e (str "concept:name")) as [[]|]; reflexivity. }
        assert (P2 : p_date P = time_read date f32 f64 parse_date parse_f64 veq log e).
        { unfold P. rewrite (upd_date date f32 f64) by exact N2. rewrite kept_get by exact ND. rewrite D2. unfold time_read, first_of.
          destruct (own log e (str "time:timestamp")) as [[]|]; reflexivity. }
        unfold RXesProofs.closing.
        destruct (p_name P) as [n|] eqn:E1; [|right; left; congruence]. destruct (p_date P) as [t|] eqn:E2; [|right; right; congruence].
        split; [exact NB|]. cbn [x_name x_time x_payload]. split; [congruence|]. split; [congruence|].
        split; [apply (upd_special date f32 f64); [left; reflexivity|exact D3]|]. split; [apply (upd_special date f32 f64); [right; reflexivity|exact D4]|].
        intros k K1 K2. unfold P. rewrite (upd_payload date f32 f64) by assumption. rewrite kept_get by exact ND. rewrite D5 by assumption.
        unfold first_of. reflexivity.
    Qed.
    Notation reads := (fun es => flat_map (fun e => match read_back log (globals_read (l_globals log)) e with Some e' => [e'] | None => [] end) es).
    Lemma events_fact es : (forall e, In e es -> is_dict e) -> events_arrive date f32 f64 parse_date parse_f64 veq log es (reads es).
    Proof.
      induction es as [|e es IH]; intros H; [constructor|]. cbn [flat_map]. pose proof (event_fact e (H e (or_introl eq_refl))) as F.
      destruct (read_back _ _ e); [apply arrive_kept|apply arrive_lost]; try exact F; apply IH; intros e' He; apply H; right; exact He.
    Qed.
    Lemma trace_b_iff t : trace_b log t = true <-> trace_in_file veq log t.
    Proof.
      unfold trace_b, trace_in_file. split.
      - intros H. destruct (t_events t); [|left; discriminate]. destruct (kept log (str "trace") (t_attrs t)) as [|[k v] l] eqn:K; [discriminate|].
        right. exists k, v. apply kept_iff. rewrite K. left. reflexivity.
      - intros [H|(k & v & H)]; [destruct (kept _ _ _); [|reflexivity]; destruct (t_events t); [contradiction|reflexivity]|].
        apply kept_iff in H. destruct (kept _ _ _); [destruct H|reflexivity].
    Qed.
    Lemma traces_fact ts : (forall t e, In t ts -> In e (t_events t) -> is_dict e) ->
      traces_arrive date f32 f64 parse_date parse_f64 veq log ts (map (fun t => reads (t_events t)) (filter (trace_b log) ts)).
    Proof.
      induction ts as [|t ts IH]; intros H; [constructor|]. cbn [filter].
      assert (IH' := IH (fun t' e Ht He => H t' e (or_intror Ht) He)).
      destruct (trace_b log t) eqn:B.
      - cbn [map]. apply ta_kept; [apply trace_b_iff; exact B| |exact IH']. apply events_fact. intros e He. exact (H t e (or_introl eq_refl) He).
      - apply ta_lost; [|exact IH']. intros A. apply trace_b_iff in A. congruence.
    Qed.
  End Ev.

  (* ---- the log ---- *)
  Lemma fold_ext xs : forall l : xlog, fold_left add_item (map IExtension xs) l = mkXLog (x_traces l) (x_globals l) (x_exts l ++ xs) (x_classifiers l) (x_props l).
  Proof. induction xs as [|x xs IH]; intros l; [rewrite app_nil_r; destruct l; reflexivity|]. cbn [map fold_left]. rewrite IH. cbn. rewrite <- app_assoc. reflexivity. Qed.
  Lemma fold_cls xs : forall l : xlog, fold_left add_item (map (fun x => IClassifier (cls_of x)) xs) l = mkXLog (x_traces l) (x_globals l) (x_exts l) (x_classifiers l ++ map cls_of xs) (x_props l).
  Proof. induction xs as [|x xs IH]; intros l; [rewrite app_nil_r; destruct l; reflexivity|]. cbn [map fold_left]. rewrite IH. cbn. rewrite <- app_assoc. reflexivity. Qed.
  Lemma fold_glb xs : forall l : xlog, fold_left add_item (map (fun sd => IGlobal (fst sd) (snd sd)) xs) l =
    mkXLog (x_traces l) (gfold xs (x_globals l)) (x_exts l) (x_classifiers l) (x_props l).
  Proof. induction xs as [|x xs IH]; intros l; [destruct l; reflexivity|]. cbn [map fold_left]. rewrite IH. reflexivity. Qed.
  Lemma fold_trc {T} (f : T -> list xevent) xs : forall l : xlog, fold_left add_item (map (fun t => ITrace (f t)) xs) l =
    mkXLog (x_traces l ++ map f xs) (x_globals l) (x_exts l) (x_classifiers l) (x_props l).
  Proof. induction xs as [|x xs IH]; intros l; [rewrite app_nil_r; destruct l; reflexivity|]. cbn [map fold_left]. rewrite IH. cbn. rewrite <- app_assoc. reflexivity. Qed.

  Lemma items_open g a r : items_of g (TStart (str "log") (map (fun kv : pystr * pystr => Some (fst kv, et_escape (snd kv))) a) :: r) = items_of g r.
  Proof.
    unfold RXesProofs.items_of at 1. set (am := map _ a).
    assert (P : try_read_property f32 parse_date parse_f64 parse_uuid (str "log") am = Fine None).
    { unfold try_read_property, read_payload_like_tag. unfold am.
      assert (L : forall k, last_attr k (map (fun kv : pystr * pystr => Some (fst kv, et_escape (snd kv))) a) = None \/
         exists v, last_attr k (map (fun kv : pystr * pystr => Some (fst kv, et_escape (snd kv))) a) = Some (et_escape v)).
      { intros k. unfold last_attr.
        assert (Q : forall b acc, (acc = None \/ exists v, acc = Some (et_escape v)) ->
          fold_left (fun acc a0 => match a0 with Some (k0, v) => if str_eqb k0 k then Some v else acc | None => acc end) (map (fun kv : pystr * pystr => Some (fst kv, et_escape (snd kv))) b) acc = None \/
          exists v, fold_left (fun acc a0 => match a0 with Some (k0, v) => if str_eqb k0 k then Some v else acc | None => acc end) (map (fun kv : pystr * pystr => Some (fst kv, et_escape (snd kv))) b) acc = Some (et_escape v)).
        { induction b as [|x b IH]; intros acc H; [exact H|]. cbn [map fold_left]. apply IH. destruct (str_eqb (fst x) k); [right; eexists; reflexivity|exact H]. }
        apply Q. left. reflexivity. }
      destruct (L (str "key")) as [E1|[k E1]]; rewrite E1; [reflexivity|].
      destruct (L (str "value")) as [E2|[v E2]]; rewrite E2; rewrite ?et_unescape; reflexivity. }
    assert (L : length r < length (TStart (str "log") am :: r)) by (cbn; lia). revert L.
    generalize (length (TStart (str "log") am :: r)). intros f L. cbn [RXesModel.read_items].
    change (str_eqb (str "log") (str "trace")) with false. change (str_eqb (str "log") (str "global")) with false.
    change (str_eqb (str "log") (str "extension") || str_eqb (str "log") (str "classifier")) with false. cbn iota zeta. rewrite P.
    apply (RXesProofs.items_fuel date f32 f64). exact L.
  Qed.

  Definition log_read (log : eventlog) : xlog :=
    mkXLog (map (fun t => flat_map (fun e => match read_back log (globals_read (l_globals log)) e with Some e' => [e'] | None => [] end) (t_events t)) (filter (trace_b log) (l_traces log)))
      (globals_read (l_globals log)) (flat_map ext_of (l_extensions log)) (map cls_of (l_classifiers log)) [].
  Lemma reading log : held log -> (forall n g, In (n, g) (l_globals log) -> forall k v, In (k, v) g -> xes_type v) ->
    read_log f32 parse_date parse_f64 parse_uuid (to_text (Elem tag_log (set_all [] (l_attrs log)) (doc_children veq log))) = Fine (log_read log).
  Proof.
    intros H X. change tag_log with (str "log").
    assert (A : forall g r, items_of g (flat_map to_text (doc_children veq log) ++ r) =
      prepend (map IExtension (flat_map ext_of (l_extensions log))) (prepend (map (fun x => IClassifier (cls_of x)) (l_classifiers log))
        (items_of g (flat_map to_text (map global_elem (l_globals log) ++ map (trace_elem veq log) (l_traces log)) ++ r)))).
    { intros g r. unfold doc_children. rewrite !flat_map_app, <- !app_assoc. rewrite items_exts_c by exact (h_exts _ H). rewrite items_cls_c by exact (h_cls _ H).
      rewrite items_props_c. reflexivity. }
    unfold RXesModel.read_log.
    assert (E : items_of [] (to_text (Elem (str "log") (set_all [] (l_attrs log)) (doc_children veq log))) =
      Fine (map IExtension (flat_map ext_of (l_extensions log)) ++ map (fun x => IClassifier (cls_of x)) (l_classifiers log) ++
        map (fun sd => IGlobal (fst sd) (snd sd)) (globals_c (l_globals log)) ++
        map (fun t => ITrace (flat_map (fun e => match read_back log (globals_read (l_globals log)) e with Some e' => [e'] | None => [] end) (t_events t))) (filter (trace_b log) (l_traces log)))).
    { destruct (doc_children veq log) as [|c cs] eqn:C.
      - unfold doc_children in C. apply app_eq_nil in C. destruct C as [C1 C]. apply app_eq_nil in C. destruct C as [C2 C].
        apply app_eq_nil in C. destruct C as [_ C]. apply app_eq_nil in C. destruct C as [C3 C4].
        apply map_eq_nil in C1, C2, C3, C4. rewrite C1, C2, C3, C4. cbn [to_text]. rewrite (RXesProofs.items_empty date f32 f64).
        unfold try_read_tag. change (str_eqb (str "log") (str "extension")) with false. change (str_eqb (str "log") (str "classifier")) with false. cbn iota.
        rewrite no_property; [reflexivity|reflexivity|]. change (set_all [] (l_attrs log)) with (over [] (l_attrs log)). rewrite over_nil; exact (h_attrs _ H).
      - rewrite <- C in *. assert (T : to_text (Elem (str "log") (set_all [] (l_attrs log)) (doc_children veq log)) =
          TStart (str "log") (map (fun kv => Some (fst kv, et_escape (snd kv))) (set_all [] (l_attrs log))) :: flat_map to_text (doc_children veq log) ++ [TEnd (str "log")]).
        { rewrite C. reflexivity. }
        rewrite T, items_open, A, flat_map_app, <- app_assoc.
        rewrite items_globals_c; [|exact X|exact (h_globals _ H)|intros s _ []].
        rewrite items_traces_c. match goal with |- context [items_of ?g [TEnd (str "log")]] => change (items_of g [TEnd (str "log")]) with (@Fine (list (item date f32 f64)) []) end.
        cbn [RXesProofs.prepend]. rewrite app_nil_r. reflexivity. }
    unfold RXesProofs.items_of in E. rewrite E.
    rewrite !fold_left_app, fold_ext, fold_cls, fold_glb, fold_trc. reflexivity.
  Qed.

  Lemma ok_tagged log x : serialize_log_to_tree veq log = Ok x ->
    (forall n g, In (n, g) (l_globals log) -> forall k v, In (k, v) g -> xes_type v) /\ x = Elem tag_log (set_all [] (l_attrs log)) (doc_children veq log).
  Proof.
    intros S.
    assert (X : forall n g, In (n, g) (l_globals log) -> forall k v, In (k, v) g -> xes_type v).
    { unfold serialize_log_to_tree in S. match type of S with bind ?m _ = _ => destruct m as [gs|] eqn:M end; [|discriminate]. clear S.
      intros n g Hg k v Hv. apply mapM_ok_inv in M. revert Hg. induction M as [|sc y l ys E M IH]; [intros []|].
      intros [->|Hg]; [|exact (IH Hg)]. cbn [fst snd] in E. match type of E with bind ?m _ = _ => destruct m as [c|] eqn:C end; [|discriminate]. clear E IH M.
      apply mapM_ok_inv in C. revert Hv. induction C as [|kv z l' zs E C IH]; [intros []|]. intros [->|Hv]; [|exact (IH Hv)].
      cbn [fst snd] in E. unfold create_value_tag in E. destruct v; try exact I; discriminate. }
    split; [exact X|]. rewrite (serialize_ok (fun _ => Err ValueError) (fun _ => Err ValueError)) in S by exact X.
    destruct (forallb _ _); [congruence|discriminate].
  Qed.

  Lemma exts_fact xs : exts_arrive xs (flat_map ext_of xs).
  Proof.
    induction xs as [|[n c] xs IH]; [constructor|]. cbn [flat_map]. unfold ext_of at 1. cbn [fst snd].
    destruct (dget str_eq_dec c (str "prefix")) as [p|] eqn:E1; [destruct (dget str_eq_dec c (str "uri")) as [u|] eqn:E2|]; cbn [app].
    - eapply xa_kept; [exact E1|exact E2|apply et_escape_escaped..|exact IH].
    - apply xa_lost; [right; exact E2|exact IH].
    - apply xa_lost; [left; exact E1|exact IH].
  Qed.
  Lemma cls_fact xs : Forall2 (fun nk c => et_escaped (fst nk) (xc_name c) /\ Forall2 et_escaped (snd nk) (xc_keys c)) xs (map cls_of xs).
  Proof.
    induction xs as [|[n ks] xs IH]; constructor; [|exact IH]. cbn. split; [apply et_escape_escaped|].
    induction ks as [|k ks IHk]; constructor; [apply et_escape_escaped|exact IHk].
  Qed.
  Lemma globals_fact gs : is_dict gs -> (forall n g, In (n, g) gs -> is_dict g) -> globals_arrive date f32 f64 parse_date parse_f64 gs (globals_read gs).
  Proof.
    intros G GV. split; [|split].
    - intros t A. apply fold_dset_keys in A. destruct A as [A|[]]. apply globals_c_keys in A. destruct A as (s & d & -> & B & C).
      exists s, d. split; [exact B|]. split; [exact C|apply et_escape_escaped].
    - intros s t kv d A B. apply et_escaped_escape in A. subst t. rewrite globals_read_get by exact G. rewrite B. eexists. split; [reflexivity|]. intros k.
      apply heard_fold. apply dget_In in B. exact (GV _ _ B).
    - intros s t A B. apply et_escaped_escape in A. subst t. rewrite globals_read_get by exact G. destruct B as [B|B]; rewrite B; reflexivity.
  Qed.
  Lemma C79_read_proof log o : held log -> client_to_backend f32 parse_date parse_f64 parse_uuid veq log = Ok o ->
    exists log', o = Fine log' /\ traces_arrive date f32 f64 parse_date parse_f64 veq log (l_traces log) (x_traces log') /\
      globals_arrive date f32 f64 parse_date parse_f64 (l_globals log) (x_globals log') /\
      exts_arrive (l_extensions log) (x_exts log') /\
      Forall2 (fun nk c => et_escaped (fst nk) (xc_name c) /\ Forall2 et_escaped (snd nk) (xc_keys c)) (l_classifiers log) (x_classifiers log') /\
      x_props log' = [].
  Proof.
    intros H E. unfold client_to_backend in E. destruct (serialize_log_to_tree veq log) as [x|] eqn:S; [|discriminate]. cbn [bind] in E. injection E as <-.
    destruct (ok_tagged log x S) as [X ->]. exists (log_read log). split; [apply reading; assumption|]. unfold log_read. cbn [x_traces x_globals x_exts x_classifiers x_props].
    split; [apply traces_fact; [exact (h_globals _ H)|exact (h_values _ H)|exact (h_events _ H)]|].
    split; [apply globals_fact; [exact (h_globals _ H)|exact (h_values _ H)]|]. split; [apply exts_fact|]. split; [apply cls_fact|reflexivity].
  Qed.
End C79.
