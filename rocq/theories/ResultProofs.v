(** Proofs for C44: values of the initial context at the backend, values of the backend at the frontend. *)
From Coq Require Import SpecFloat Lia.
From Verif Require Import Py PyFacts XesModel WireModel ConstModel ClientModel ClientSpec ClientProofs
  BackendModel FloatFacts BackendSpec BackendProofs DecodeModel ResultSpec.

(** * To the backend *)

Lemma value_ok_proof v : (exists g, ctxval_grpc v = Ok g) <-> value_ok v.
Proof.
  destruct v; cbn [ctxval_grpc value_ok].
  - split; [intros [g H]; discriminate|intros []].
  - split; eauto.
  - unfold string_value. rewrite bind_ok. apply pb_string_ok.
  - unfold float_value. split; eauto.
  - unfold uint32_value. rewrite bind_ok. apply pb_uint32_ok.
  - unfold bool_value. split; eauto.
  - unfold hashes_log_value. rewrite bind_ok, mapM_ok_iff. split.
    + intros H t z Ht Hz. specialize (H t Ht). rewrite mapM_ok_iff in H. apply pb_uint64_ok, H, Hz.
    + intros H t Ht. apply mapM_ok_iff. intros z Hz. apply pb_uint64_ok, (H t z Ht Hz).
  - unfold names_log_value. rewrite bind_ok, mapM_ok_iff. split.
    + intros H t z Ht Hz. specialize (H t Ht). rewrite mapM_ok_iff in H. apply pb_string_ok, H, Hz.
    + intros H t Ht. apply mapM_ok_iff. intros z Hz. apply pb_string_ok, (H t z Ht Hz).
  - apply enum_value_ok.
  - unfold strings_value. rewrite bind_ok, mapM_ok_iff. split; intros H s Hs; apply pb_string_ok, H, Hs.
  - rewrite bind_ok. apply sendable_proof.
  - split; [|intros []]. intros [g H]. destruct (pb_uint32 events); [|discriminate]. cbn [bind] in H.
    destruct (pb_uint32 traces); [|discriminate]. cbn [bind] in H. destruct (pb_uint32 classes); discriminate H.
Qed.

Lemma str_eqb_eq a b : str_eqb a b = true <-> a = b.
Proof. unfold str_eqb. destruct (str_eq_dec a b); split; congruence. Qed.

Lemma read_enum_carried ty v : read_enum ty v = carried (CEnum ty v).
Proof.
  unfold read_enum. cbn [carried].
  assert (Hd : NoDup (map fst backend_enums)) by (apply nodup_dec_keys; vm_compute; reflexivity).
  destruct (dget str_eq_dec backend_enums ty) as [names|] eqn:E.
  - apply dget_In in E. destruct (existsb (str_eqb v) names) eqn:Ev.
    + rewrite (proj2 (existsb_exists _ _)); [reflexivity|]. exists (ty, names). split; [exact E|]. cbn [fst snd].
      rewrite Ev, (proj2 (str_eqb_eq ty ty) eq_refl). reflexivity.
    + destruct (existsb _ backend_enums) eqn:Ee; [|reflexivity]. apply existsb_exists in Ee.
      destruct Ee as [[t ns] [Hi He]]. cbn [fst snd] in He. apply andb_prop in He. destruct He as [Ht Hn].
      apply str_eqb_eq in Ht. subst t.
      assert (En : ns = names).
      { apply (In_dget str_eq_dec) in Hi; [|exact Hd]. apply (In_dget str_eq_dec) in E; [|exact Hd]. congruence. }
      congruence.
  - destruct (existsb _ backend_enums) eqn:Ee; [|reflexivity]. apply existsb_exists in Ee.
    destruct Ee as [[t ns] [Hi He]]. cbn [fst snd] in He. apply andb_prop in He. destruct He as [Ht Hn].
    apply str_eqb_eq in Ht. subst t. apply (In_dget str_eq_dec) in Hi; [|exact Hd]. congruence.
Qed.

Definition value_uuids (v : ctxval) : Prop :=
  match v with
  | CPipeline parts => forall p, inside p parts -> bears_callback p -> uuid_ok (part_uuid p)
  | _ => True
  end.

Lemma mapM_mapM_string log r : mapM (mapM pb_string) log = Ok r -> r = log.
Proof.
  intros H. apply mapM_ok_inv in H. induction H as [|x y l r Hx _ IH]; [reflexivity|].
  apply mapM_pb_string in Hx. subst. reflexivity.
Qed.

Lemma value_kept_proof v g x :
  ctxval_grpc v = Ok g -> value_uuids v -> carried v = Some x -> read_value g = Ok (Some x).
Proof.
  intros H Hu Hc. destruct v; cbn [carried] in Hc; try discriminate Hc; cbn [ctxval_grpc] in H.
  - injection Hc as <-. unfold string_value, pb_string in H. destruct (existsb surrogate s); [discriminate|].
    injection H as <-. reflexivity.
  - injection Hc as <-. injection H as <-. reflexivity.
  - injection Hc as <-. unfold uint32_value, pb_uint32 in H. destruct (_ && _); [|discriminate].
    injection H as <-. reflexivity.
  - injection Hc as <-. injection H as <-. reflexivity.
  - injection Hc as <-. unfold names_log_value in H. destruct (mapM (mapM pb_string) log) as [l|] eqn:E; [|discriminate].
    apply mapM_mapM_string in E. subst. injection H as <-. reflexivity.
  - unfold enum_value, pb_string in H. destruct (existsb surrogate ty); [discriminate|]. cbn [bind] in H.
    destruct (existsb surrogate v); [discriminate|]. injection H as <-. cbn [read_value].
    rewrite read_enum_carried. cbn [carried]. rewrite Hc. reflexivity.
  - injection Hc as <-. unfold strings_value in H. destruct (mapM pb_string l) as [r|] eqn:E; [|discriminate].
    apply mapM_pb_string in E. subst. injection H as <-. reflexivity.
  - injection Hc as <-. destruct (pipeline_grpc parts) as [gs|] eqn:E; [|discriminate]. injection H as <-.
    cbn [read_value]. rewrite (understood_proof parts gs E Hu). reflexivity.
Qed.

Lemma unknown_enum_proof ty v g : ctxval_grpc (CEnum ty v) = Ok g -> carried (CEnum ty v) = None ->
  read_value g = Ok None.
Proof.
  intros H Hc. cbn [ctxval_grpc] in H. unfold enum_value, pb_string in H.
  destruct (existsb surrogate ty); [discriminate|]. cbn [bind] in H.
  destruct (existsb surrogate v); [discriminate|]. injection H as <-. cbn [read_value].
  rewrite read_enum_carried, Hc. reflexivity.
Qed.
Lemma hashes_panic log g : ctxval_grpc (CHashesLog log) = Ok g -> read_value g = Err AssertionErr.
Proof.
  intros H. cbn [ctxval_grpc] in H. unfold hashes_log_value in H. destruct (mapM _ log); [|discriminate].
  injection H as <-. reflexivity.
Qed.

Lemma initial_context_app ctx : forall c d held,
  initial_context_grpc ctx = Ok c ->
  Forall2 (fun kv kx => fst kv = fst kx /\ carried (snd kv) = Some (snd kx)) ctx held ->
  (forall kv, In kv ctx -> In (fst kv) (map fst backend_keys) /\ value_uuids (snd kv)) ->
  NoDup (map fst d ++ map fst ctx) ->
  initial_context c d = Ok (d ++ held).
Proof.
  induction ctx as [|[k v] ctx IH]; intros c d held H HF Hk Hn; inversion HF as [|? [k' x] ? held' [E1 E2] HF']; subst.
  - injection H as <-. cbn. rewrite app_nil_r. reflexivity.
  - unfold initial_context_grpc in H. cbn [mapM fst snd] in H.
    unfold pb_string in H at 1. destruct (existsb surrogate k); [discriminate|]. cbn [bind] in H.
    destruct (ctxval_grpc v) as [g|] eqn:Eg; [|discriminate]. cbn [bind] in H.
    destruct (mapM _ ctx) as [c'|] eqn:Ec; [|discriminate]. cbn [bind] in H. injection H as <-.
    cbn [fst snd] in *. subst k'. destruct (Hk (k, v) (or_introl eq_refl)) as [Hin Hv]. cbn [fst snd] in *.
    cbn [initial_context]. unfold find_key.
    destruct (dget str_eq_dec backend_keys k) eqn:Ek; [|apply dget_None in Ek; destruct (Ek Hin)].
    rewrite (value_kept_proof v g x Eg Hv E2). cbn [bind]. rewrite dset_fresh.
    + rewrite (IH c' (d ++ [(k, x)]) held' Ec HF').
      * rewrite <- app_assoc. reflexivity.
      * intros kv Hi. apply Hk. right. exact Hi.
      * rewrite map_app, <- app_assoc. exact Hn.
    + cbn [map fst] in Hn. apply NoDup_remove_2 in Hn. intros Hi. apply Hn. apply in_or_app. left. exact Hi.
Qed.

Lemma context_kept_proof ctx c held :
  initial_context_grpc ctx = Ok c -> NoDup (map fst ctx) ->
  Forall2 (fun kv kx => fst kv = fst kx /\ carried (snd kv) = Some (snd kx)) ctx held ->
  (forall kv, In kv ctx -> In (fst kv) (map fst backend_keys) /\ value_uuids (snd kv)) ->
  initial_context c [] = Ok held.
Proof. intros H Hn HF Hk. exact (initial_context_app ctx c [] held H HF Hk Hn). Qed.

Lemma float_kept_proof x : binary64 x -> in_binary32 x -> as_f64 (f32 x) = x.
Proof.
  intros Hb [y [Hv Hs]]. assert (E : f32 x = y) by exact (normalize_exact 24 128 x y Hv Hs). rewrite E.
  exact (normalize_exact 53 1024 y x Hb (same_number_sym _ _ Hs)).
Qed.

(** * From the backend *)

Lemma as_i64_signed z : word z -> as_i64 z = signed z.
Proof.
  unfold word, as_i64, signed. intros H. destruct (z <? 2 ^ 63)%Z eqn:E.
  - apply Z.ltb_lt in E. rewrite Z.mod_small; lia.
  - apply Z.ltb_ge in E.
    rewrite (Z.mod_eq (z + 2 ^ 63) (2 ^ 64)) by lia.
    assert (Hq : ((z + 2 ^ 63) / 2 ^ 64 = 1)%Z) by (symmetry; apply (Z.div_unique _ _ _ (z - 2 ^ 63)); lia).
    rewrite Hq. lia.
Qed.
Lemma signed_inj a b : word a -> word b -> signed a = signed b -> a = b.
Proof.
  unfold word, signed. intros Ha Hb. destruct (a <? 2 ^ 63)%Z eqn:E1, (b <? 2 ^ 63)%Z eqn:E2;
    try apply Z.ltb_lt in E1; try apply Z.ltb_lt in E2; try apply Z.ltb_ge in E1; try apply Z.ltb_ge in E2; lia.
Qed.
Lemma as_u32_small z : (0 <= z < 2 ^ 32)%Z -> as_u32 z = z.
Proof. intros H. unfold as_u32. apply Z.mod_small. exact H. Qed.
Lemma as_i32_small z : label32 z -> as_i32 z = z.
Proof. unfold label32, as_i32. intros H. rewrite Z.mod_small; lia. Qed.

Lemma dset_freshZ {V} (d : dict Z V) k v : ~ In k (map fst d) -> dset Z.eq_dec d k v = d ++ [(k, v)].
Proof.
  induction d as [|[k' v'] d IH]; intros H; cbn [dset app]; [reflexivity|].
  destruct (Z.eq_dec k k') as [->|Hn]; [destruct H; left; reflexivity|].
  rewrite IH; [reflexivity|]. intros Hi. apply H. right. exact Hi.
Qed.
Lemma fold_dset {A V} (key : A -> Z) (val : A -> V) l : forall d,
  NoDup (map fst d ++ map key l) ->
  fold_left (fun d x => dset Z.eq_dec d (key x) (val x)) l d = d ++ map (fun x => (key x, val x)) l.
Proof.
  induction l as [|x l IH]; intros d Hn; cbn [fold_left map]; [rewrite app_nil_r; reflexivity|].
  cbn [map] in Hn. rewrite dset_freshZ.
  - rewrite IH; [rewrite <- app_assoc; reflexivity|]. rewrite map_app, <- app_assoc. exact Hn.
  - apply NoDup_remove_2 in Hn. intros Hi. apply Hn. apply in_or_app. left. exact Hi.
Qed.
Lemma fold_snoc {A B} (f : A -> B) l : forall d, fold_left (fun l x => l ++ [f x]) l d = d ++ map f l.
Proof.
  induction l as [|x l IH]; intros d; cbn [fold_left map]; [rewrite app_nil_r; reflexivity|].
  rewrite IH, <- app_assoc. reflexivity.
Qed.
Lemma NoDup_map_signed {A} (f : A -> Z) l : (forall x, In x l -> word (f x)) -> NoDup (map f l) ->
  NoDup (map (fun x => signed (f x)) l).
Proof.
  intros Hw. induction l as [|x l IH]; intros Hn; cbn [map] in *; [constructor|].
  inversion Hn as [|? ? Hx Hn']; subst. constructor.
  - intros Hi. apply in_map_iff in Hi. destruct Hi as [y [E Hy]]. apply Hx. apply in_map_iff. exists y. split; [|exact Hy].
    apply signed_inj; [apply Hw; right; exact Hy|apply Hw; left; reflexivity|exact E].
  - apply IH; [|exact Hn']. intros y Hy. apply Hw. right. exact Hy.
Qed.

Lemma from_arc a : arc_words a -> from_grpc_arc (arc_grpc a) = held_arc a.
Proof. intros [H1 [H2 H3]]. unfold from_grpc_arc, arc_grpc, held_arc. cbn. rewrite !as_i64_signed; auto. Qed.
Lemma from_transition t : word (rt_id t) -> (forall a, In a (rt_in t ++ rt_out t) -> arc_words a) ->
  from_grpc_transition (transition_grpc t) = held_transition t.
Proof.
  intros Hw Ha. unfold from_grpc_transition, transition_grpc, held_transition.
  cbn [gt_id gt_in gt_out gt_data]. rewrite as_i64_signed by exact Hw. rewrite !fold_snoc, !app_nil_l, !map_map.
  f_equal; apply map_ext_in; intros a Hi; apply from_arc, Ha, in_or_app; auto.
Qed.
Lemma from_marking m : marking_words m -> try_from_grpc_marking (marking_grpc m) = held_marking m.
Proof.
  intros Hm. unfold try_from_grpc_marking, marking_grpc, held_marking. destruct m as [l|]; cbn [option_map]; [|reflexivity].
  f_equal. rewrite map_map. apply map_ext_in. intros p Hp. destruct (Hm l p eq_refl Hp) as [H1 H2].
  unfold from_grpc_single_marking, single_grpc, held_single. cbn [fst snd]. rewrite !as_i64_signed by assumption. reflexivity.
Qed.

Lemma petri_net_proof n : net_ok n ->
  from_grpc_petri_net (net_grpc n) =
  mkNet (map (fun p => (signed (fst p), held_place p)) (rn_places n))
        (map (fun t => (signed (rt_id t), held_transition t)) (rn_transitions n))
        (held_marking (rn_initial n)) (held_marking (rn_final n)).
Proof.
  intros [Np Nt Wp Wt Wa Hi Hf]. unfold from_grpc_petri_net, net_grpc. cbn [gp_places gp_transitions gp_initial gp_final].
  rewrite !from_marking by assumption.
  assert (Ep : map (fun p : Z * pystr => (as_i64 (fst p), snd p)) (rn_places n) =
               map (fun p => (signed (fst p), snd p)) (rn_places n)).
  { apply map_ext_in. intros p Hp. rewrite as_i64_signed by (apply Wp, Hp). reflexivity. }
  rewrite Ep. f_equal.
  - rewrite (fold_dset (fun g => pl_id (from_grpc_petri_net_place g)) from_grpc_petri_net_place).
    + rewrite app_nil_l, map_map. reflexivity.
    + cbn [map app]. rewrite map_map. cbn. apply NoDup_map_signed; [exact Wp|exact Np].
  - assert (Et : forall l, (forall t, In t l -> In t (rn_transitions n)) ->
       map from_grpc_transition (map transition_grpc l) = map held_transition l).
    { intros l Hl. rewrite map_map. apply map_ext_in. intros t Ht. apply from_transition; [apply Wt, Hl, Ht|].
      intros a Ha. exact (Wa t a (Hl t Ht) Ha). }
    rewrite (fold_dset (fun g => tr_id (from_grpc_transition g)) from_grpc_transition).
    + rewrite app_nil_l, map_map. apply map_ext_in. intros t Ht.
      rewrite from_transition; [reflexivity|apply Wt, Ht|]. intros a Ha. exact (Wa t a Ht Ha).
    + cbn [map app]. rewrite map_map.
      assert (E : map (fun t => tr_id (from_grpc_transition (transition_grpc t))) (rn_transitions n) =
                  map (fun t => signed (rt_id t)) (rn_transitions n)).
      { apply map_ext_in. intros t Ht. cbn. apply as_i64_signed, Wt, Ht. }
      rewrite E. apply NoDup_map_signed; [exact Wt|exact Nt].
Qed.

Lemma graph_proof g :
  from_grpc_graph (graph_grpc g) =
  mkGraph (map (fun n => mkNode (fst n) match snd n with Some s => s | None => [] end) (rg_nodes g))
          (map (fun e => mkEdge (fst (fst e)) (snd (fst e)) match snd e with Some s => s | None => [] end) (rg_edges g)).
Proof.
  unfold from_grpc_graph, graph_grpc. cbn [gg_nodes gg_edges].
  rewrite (fold_snoc (fun n : Z * pystr => mkNode (fst n) (snd n))),
          (fold_snoc (fun e : Z * Z * pystr => mkEdge (fst (fst e)) (snd (fst e)) (snd e))).
  rewrite !app_nil_l, !map_map. reflexivity.
Qed.

Lemma counts_proof l : NoDup (map fst l) -> (forall a, In a l -> word (fst a) /\ word (snd a)) ->
  from_grpc_count_annotation (map (fun a => (as_i64 (fst a), as_i64 (snd a))) l) =
  map (fun a => (signed (fst a), show_int (signed (snd a)))) l.
Proof.
  intros Hn Hw. unfold from_grpc_count_annotation.
  assert (E : map (fun a => (as_i64 (fst a), as_i64 (snd a))) l = map (fun a : Z * Z => (signed (fst a), signed (snd a))) l).
  { apply map_ext_in. intros a Ha. destruct (Hw a Ha). rewrite !as_i64_signed by assumption. reflexivity. }
  rewrite E. rewrite (fold_dset (fun a : Z * Z => fst a) (fun a => show_int (snd a))).
  - rewrite app_nil_l, map_map. reflexivity.
  - cbn [map app]. rewrite map_map. cbn [fst]. apply NoDup_map_signed; [|exact Hn]. intros a Ha. apply Hw, Ha.
Qed.
Lemma freqs_proof (float_repr : pyfloat -> pystr) l : NoDup (map fst l) -> (forall a, In a l -> word (fst a)) ->
  from_grpc_frequency_annotation float_repr (map (fun a => (as_i64 (fst a), f32 (snd a))) l) =
  map (fun a => (signed (fst a), float_repr (f32 (snd a)))) l.
Proof.
  intros Hn Hw. unfold from_grpc_frequency_annotation.
  assert (E : map (fun a => (as_i64 (fst a), f32 (snd a))) l = map (fun a : Z * pyfloat => (signed (fst a), f32 (snd a))) l).
  { apply map_ext_in. intros a Ha. rewrite as_i64_signed by (apply Hw, Ha). reflexivity. }
  rewrite E. rewrite (fold_dset (fun a : Z * pyfloat => fst a) (fun a => float_repr (snd a))).
  - rewrite app_nil_l, map_map. reflexivity.
  - cbn [map app]. rewrite map_map. cbn [fst]. apply NoDup_map_signed; [exact Hw|exact Hn].
Qed.

Lemma colors_proof log :
  (forall t r, In t log -> In r t -> (0 <= rr_start r < 2 ^ 32)%Z /\ (0 <= rr_length r < 2 ^ 32)%Z) ->
  from_grpc_colors_log (map (map rect_grpc) log) = map (map held_rect) log.
Proof.
  intros H. unfold from_grpc_colors_log. rewrite map_map. apply map_ext_in. intros t Ht. rewrite map_map.
  apply map_ext_in. intros r Hr. destruct (H t r Ht Hr) as [H1 H2].
  unfold from_grpc_colored_rectangle, rect_grpc, held_rect. cbn [gr_color gr_start gr_length gr_name].
  rewrite !as_u32_small by assumption. reflexivity.
Qed.

Lemma dataset_proof d : regular d ->
  from_grpc_ficus_dataset (dataset_grpc d) =
  Ok (mkFrame (rd_columns d) (rd_names d) (map (map (fun x => CellFloat (f32 x))) (rd_values d))).
Proof.
  intros [Hn Hr]. unfold from_grpc_ficus_dataset, dataset_grpc. cbn [gd_rows gd_columns gd_names].
  assert (E : map (map CellFloat) (map (map f32) (rd_values d)) = map (map (fun x => CellFloat (f32 x))) (rd_values d)).
  { rewrite map_map. apply map_ext. intros row. apply map_map. }
  rewrite E. unfold data_frame. rewrite (proj2 (forallb_forall _ _)).
  - rewrite map_length, Hn, Nat.eqb_refl. reflexivity.
  - intros row Hrow. apply in_map_iff in Hrow. destruct Hrow as [r [<- Hi]]. rewrite map_length.
    apply Nat.eqb_eq. apply Hr, Hi.
Qed.

Lemma labeled_proof d labels colors : regular d -> length labels = length (rd_values d) ->
  (forall z, In z labels -> label32 z) -> ~ In (str "cluster_labels") (rd_columns d) ->
  from_grpc_labeled_dataset (mkGLabeled (dataset_grpc d) (map as_i32 labels) (map color_grpc colors)) =
  Ok (mkFrame (rd_columns d ++ [str "cluster_labels"]) (rd_names d)
        (map (fun rl => map (fun x => CellFloat (f32 x)) (fst rl) ++ [CellInt (snd rl)]) (combine (rd_values d) labels))).
Proof.
  intros Hr Hl Hs Hc. unfold from_grpc_labeled_dataset. cbn [gl_dataset gl_labels]. rewrite (dataset_proof d Hr). cbn [bind].
  assert (El : map as_i32 labels = labels).
  { rewrite <- (map_id labels) at 2. apply map_ext_in. intros z Hz. apply as_i32_small, Hs, Hz. }
  rewrite El. unfold set_column. cbn [fr_rows fr_columns fr_index]. rewrite !map_length, Hl, Nat.eqb_refl. cbn [negb].
  change const_cluster_labels with (str "cluster_labels").
  destruct (existsb (str_eqb (str "cluster_labels")) (rd_columns d)) eqn:E.
  - apply existsb_exists in E. destruct E as [c [Hi He]]. apply str_eqb_eq in He. subst c. destruct (Hc Hi).
  - f_equal. f_equal. clear. revert labels. induction (rd_values d) as [|r rows IH]; intros [|l ls]; cbn; try reflexivity.
    f_equal. apply IH.
Qed.
