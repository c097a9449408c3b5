From Verif Require Import Py PyFacts LogModel EqSpec TextModel TextSpec TextProofs XesModel XesSpec XesProofs.

Section RT.
  Variables (parse_float parse_date : pystr -> result pystr) (veq : value -> value -> bool).

  Definition ext_elem (kv : pystr * dict pystr pystr) : xml := Elem tag_extension (set_all [(ext_name, fst kv)] (snd kv)) [].
  Definition cls_elem (kv : pystr * list pystr) : xml :=
    Elem tag_classifier (set_all [] [(classifier_name, fst kv); (classifier_keys, join_space (snd kv))]) [].
  Definition prop_elem (kv : pystr * value) : xml := Elem tag_string [(fst kv, show_value (snd kv))] [].
  Definition global_elem (sc : pystr * dict pystr value) : xml :=
    Elem tag_global [(attr_scope, fst sc)] (map (fun kv => val_elem (fst kv) (snd kv)) (snd sc)).

  Definition getd (c : dict pystr pystr) k := match dget str_eq_dec c k with Some v => v | None => [] end.
  Definition norm_ext (c : dict pystr pystr) : dict pystr pystr := [(ext_prefix, getd c ext_prefix); (ext_uri, getd c ext_uri)].

  Lemma join_space_joined l : join_space l = joined (str " ") l.
  Proof. induction l as [|x l IH]; [reflexivity|]. destruct l; [reflexivity|]. cbn [join_space joined] in *. rewrite IH. reflexivity. Qed.

  Lemma split_join_space ks : ks <> [] -> (forall k, In k ks -> ~ In 32%N k) -> py_split (join_space ks) (str " ") = Ok ks.
  Proof.
    intros H1 H2. rewrite join_space_joined. change (str " ") with [32%N]. unfold py_split. f_equal. apply split_joined; [discriminate|].
    apply splittable_single. auto.
  Qed.

  Notation read_child := (read_child parse_float parse_date).

  Definition upd_ext log x := mkLog (l_traces log) (l_attrs log) x (l_classifiers log) (l_properties log) (l_globals log).
  Definition upd_cls log x := mkLog (l_traces log) (l_attrs log) (l_extensions log) x (l_properties log) (l_globals log).
  Definition upd_glb log x := mkLog (l_traces log) (l_attrs log) (l_extensions log) (l_classifiers log) (l_properties log) x.

  Lemma read_ext n c log tr : is_dict c -> (forall k, In k (dkeys c) <-> k = str "prefix" \/ k = str "uri") ->
    read_child (log, tr) (ext_elem (n, c)) = Ok (upd_ext log (dset str_eq_dec (l_extensions log) n (norm_ext c)), tr).
  Proof.
    intros Hd Hk. unfold XesModel.read_child. cbn [fst snd ext_elem tag_of].
    change (str_eqb (get_tag_wo_xmlns tag_extension) tag_trace) with false.
    change (str_eqb (get_tag_wo_xmlns tag_extension) tag_extension) with true. cbv iota.
    assert (E : set_all [(ext_name, n)] c = (ext_name, n) :: c).
    { change (set_all [(ext_name, n)] c) with (over [(ext_name, n)] c). rewrite (over_fresh c [(ext_name, n)]); [reflexivity|].
      cbn. constructor; [|exact Hd]. intros Hin. apply Hk in Hin. destruct Hin; discriminate. }
    change (attrib_of (Elem tag_extension (set_all [(ext_name, n)] c) [])) with (set_all [(ext_name, n)] c).
    change (attrib_of (ext_elem (n, c))) with (set_all [(ext_name, n)] c). rewrite E. unfold dgetitem.
    change (dget str_eq_dec ((ext_name, n) :: c) ext_name) with (Some n).
    change (dget str_eq_dec ((ext_name, n) :: c) ext_prefix) with (dget str_eq_dec c ext_prefix).
    change (dget str_eq_dec ((ext_name, n) :: c) ext_uri) with (dget str_eq_dec c ext_uri).
    unfold norm_ext, getd.
    assert (Hp : exists p, dget str_eq_dec c ext_prefix = Some p) by (apply (dget_Some_key str_eq_dec), Hk; left; reflexivity).
    assert (Hu : exists u, dget str_eq_dec c ext_uri = Some u) by (apply (dget_Some_key str_eq_dec), Hk; right; reflexivity).
    destruct Hp as [p ->], Hu as [u ->]. reflexivity.
  Qed.

  Lemma loop_ext exts : forall log tr,
    (forall n c, In (n, c) exts -> is_dict c /\ forall k, In k (dkeys c) <-> k = str "prefix" \/ k = str "uri") ->
    loopM read_child (map ext_elem exts) (log, tr) =
    Ok (upd_ext log (over (l_extensions log) (map (fun kv => (fst kv, norm_ext (snd kv))) exts)), tr).
  Proof.
    induction exts as [|[n c] exts IH]; intros log tr H; [destruct log; reflexivity|]. cbn [map]. rewrite loopM_cons.
    destruct (H n c (or_introl eq_refl)) as [H1 H2]. rewrite read_ext by assumption. cbn [bind].
    rewrite IH by (intros n' c' Hin; apply (H n' c'); right; exact Hin). reflexivity.
  Qed.

  Lemma loop_cls cls : forall log tr,
    (forall n ks, In (n, ks) cls -> ks <> [] /\ forall k, In k ks -> ~ In 32%N k) ->
    loopM read_child (map cls_elem cls) (log, tr) = Ok (upd_cls log (over (l_classifiers log) cls), tr).
  Proof.
    induction cls as [|[n ks] cls IH]; intros log tr H; [destruct log; reflexivity|]. cbn [map]. rewrite loopM_cons.
    destruct (H n ks (or_introl eq_refl)) as [H1 H2].
    assert (E : read_child (log, tr) (cls_elem (n, ks)) = Ok (upd_cls log (dset str_eq_dec (l_classifiers log) n ks), tr)).
    { unfold XesModel.read_child. cbn [fst snd cls_elem tag_of].
      change (str_eqb (get_tag_wo_xmlns tag_classifier) tag_trace) with false.
      change (str_eqb (get_tag_wo_xmlns tag_classifier) tag_extension) with false.
      change (str_eqb (get_tag_wo_xmlns tag_classifier) tag_classifier) with true. cbv iota.
      change (dgetitem str_eq_dec (attrib_of (cls_elem (n, ks))) classifier_name) with (@Ok pystr n).
      change (dgetitem str_eq_dec (attrib_of (cls_elem (n, ks))) classifier_keys) with (@Ok pystr (join_space ks)).
      cbn [bind]. rewrite split_join_space by assumption. reflexivity. }
    rewrite E. cbn [bind]. rewrite IH by (intros n' c' Hin; apply (H n' c'); right; exact Hin). reflexivity.
  Qed.

  Lemma loop_add_global items : forall d,
    loopM add_global (map (fun kv => val_elem (fst kv) (snd kv)) items) d =
    Ok (over d (map (fun kv => (fst kv, VStr (show_value (snd kv)))) items)).
  Proof.
    induction items as [|[k v] items IH]; intros d; [reflexivity|]. cbn [map fst snd]. rewrite loopM_cons, elem_add_global. cbn [bind]. rewrite IH. reflexivity.
  Qed.

  Lemma loop_glb gs : forall log tr,
    NoDup (dkeys (l_globals log) ++ dkeys gs) ->
    (forall n g, In (n, g) gs -> is_dict g) ->
    loopM read_child (map global_elem gs) (log, tr) = Ok (upd_glb log (l_globals log ++ text_globals show_value gs), tr).
  Proof.
    induction gs as [|[n g] gs IH]; intros log tr Hn H; [destruct log; cbn; rewrite app_nil_r; reflexivity|]. cbn [map]. rewrite loopM_cons.
    assert (Hfresh : ~ In n (dkeys (l_globals log))). { cbn in Hn. apply NoDup_remove_2 in Hn. intros Hin. apply Hn, in_or_app. left; exact Hin. }
    set (tg := map (fun kv : pystr * value => (fst kv, VStr (show_value (snd kv)))) g).
    assert (E : read_child (log, tr) (global_elem (n, g)) = Ok (upd_glb log (l_globals log ++ [(n, tg)]), tr)).
    { unfold XesModel.read_child. cbn [fst snd global_elem tag_of].
      change (str_eqb (get_tag_wo_xmlns tag_global) tag_trace) with false.
      change (str_eqb (get_tag_wo_xmlns tag_global) tag_extension) with false.
      change (str_eqb (get_tag_wo_xmlns tag_global) tag_classifier) with false.
      change (str_eqb (get_tag_wo_xmlns tag_global) tag_global) with true.
      change (is_value_tag (global_elem (n, g))) with false. cbv iota.
      change (dgetitem str_eq_dec (attrib_of (global_elem (n, g))) attr_scope) with (@Ok pystr n). cbn [bind].
      assert (dget str_eq_dec (l_globals log) n = None) as -> by (apply (dget_None str_eq_dec); exact Hfresh).
      cbn [global_elem children_of fst snd]. rewrite loop_add_global. cbn [bind]. fold tg.
      rewrite (over_nil tg).
      2:{ unfold is_dict, tg. rewrite (dkeys_map (fun v => VStr (show_value v))). apply (H n g). left; reflexivity. }
      rewrite dset_fresh by exact Hfresh. reflexivity. }
    rewrite E. cbn [bind]. rewrite IH.
    - unfold upd_glb. cbn [l_traces l_attrs l_extensions l_classifiers l_properties l_globals]. rewrite <- app_assoc. reflexivity.
    - unfold upd_glb. cbn [l_globals]. unfold dkeys in *. rewrite map_app, <- app_assoc. exact Hn.
    - intros n' g' Hin. apply (H n' g'). right; exact Hin.
  Qed.

  Lemma loop_trc elems : forall log tr, (forall x, In x elems -> tag_of x = tag_trace) ->
    loopM read_child elems (log, tr) = Ok (log, tr ++ elems).
  Proof.
    induction elems as [|x elems IH]; intros log tr H; [cbn; rewrite app_nil_r; reflexivity|]. rewrite loopM_cons. unfold XesModel.read_child at 1.
    rewrite (H x (or_introl eq_refl)). change (str_eqb (get_tag_wo_xmlns tag_trace) tag_trace) with true. cbv iota. cbn [bind].
    rewrite IH by (intros y Hy; apply H; right; exact Hy). rewrite <- app_assoc. reflexivity.
  Qed.

  Definition doc_children (log : eventlog) : list xml :=
    map ext_elem (l_extensions log) ++ map cls_elem (l_classifiers log) ++ map prop_elem (l_properties log) ++
    map global_elem (l_globals log) ++ map (trace_elem veq log) (l_traces log).

  Lemma serialize_ok log :
    (forall n g, In (n, g) (l_globals log) -> forall k v, In (k, v) g -> xes_type v) ->
    serialize_log_to_tree veq log =
      if forallb (fun kv => match snd kv with VStr _ => true | _ => false end) (l_properties log)
      then Ok (Elem tag_log (set_all [] (l_attrs log)) (doc_children log)) else Err TypeError.
  Proof.
    intros H. unfold serialize_log_to_tree. rewrite (mapM_ok _ global_elem).
    - cbn [bind]. rewrite (mapM_ok _ (trace_elem veq log)) by (intros t _; apply (trace_element_ok parse_float parse_date)). reflexivity.
    - intros [n g] Hin. cbn [fst snd]. rewrite (mapM_create parse_float parse_date veq) || rewrite (mapM_create parse_float parse_date); [reflexivity|]. apply (H n g Hin).
  Qed.

  Definition reread_trace (log : eventlog) (t : trace) : trace :=
    mkTrace (map (reread_payload veq log (text_globals show_value (l_globals log)) tag_event) (t_events t))
            (reread_payload veq log (text_globals show_value (l_globals log)) tag_trace (t_attrs t)).

  Definition reread_log (log : eventlog) : eventlog :=
    mkLog (map (reread_trace log) (l_traces log)) (l_attrs log) (map (fun kv => (fst kv, norm_ext (snd kv))) (l_extensions log))
      (l_classifiers log) [] (text_globals show_value (l_globals log)).

  Lemma read_doc_prefix log : writable parse_float parse_date log ->
    loopM read_child (map ext_elem (l_extensions log) ++ map cls_elem (l_classifiers log)) (mkLog [] (l_attrs log) [] [] [] [], []) =
    Ok (mkLog [] (l_attrs log) (map (fun kv => (fst kv, norm_ext (snd kv))) (l_extensions log)) (l_classifiers log) [] [], []).
  Proof.
    intros W. rewrite loopM_app, (loop_ext _ _ _ (w_ext_content _ _ _ W)). cbn [bind l_extensions].
    rewrite (loop_cls _ _ _ (w_cls_content _ _ _ W)). unfold upd_ext, upd_cls. cbn [l_traces l_attrs l_extensions l_classifiers l_properties l_globals].
    rewrite over_nil by (unfold is_dict; rewrite (dkeys_map norm_ext); exact (w_ext _ _ _ W)).
    rewrite over_nil by exact (w_cls _ _ _ W). reflexivity.
  Qed.

  Lemma read_write_proof log : writable parse_float parse_date log -> l_properties log = [] ->
    exists doc, serialize_log_to_tree veq log = Ok doc /\ read_log_from_tree parse_float parse_date doc = Ok (reread_log log).
  Proof.
    intros W Hp. eexists. split.
    - rewrite serialize_ok by (intros n g Hin; exact (proj2 (w_globals_content _ _ _ W n g Hin))). rewrite Hp. reflexivity.
    - unfold read_log_from_tree. cbn [attrib_of children_of].
      assert (Ea : set_all [] (l_attrs log) = l_attrs log) by (apply over_nil; exact (w_attrs _ _ _ W)).
      rewrite Ea. change (fold_left (fun acc kv => dset str_eq_dec acc (fst kv) (snd kv)) (l_attrs log) []) with (over [] (l_attrs log)).
      rewrite (over_nil (l_attrs log)) by exact (w_attrs _ _ _ W).
      unfold doc_children. rewrite Hp. cbn [map app]. rewrite app_assoc, loopM_app, read_doc_prefix by exact W. cbn [bind].
      rewrite loopM_app, loop_glb; [|exact (w_globals _ _ _ W)|intros n g Hin; apply (w_globals_content _ _ _ W n g Hin)].
      cbn [bind]. rewrite loop_trc by (intros x Hx; apply in_map_iff in Hx; destruct Hx as [t [<- _]]; reflexivity). cbn [bind app].
      unfold upd_glb. cbn [l_traces l_attrs l_extensions l_classifiers l_properties l_globals app].
      assert (Em : mapM (read_trace parse_float parse_date (text_globals show_value (l_globals log))) (map (trace_elem veq log) (l_traces log))
                   = Ok (map (reread_trace log) (l_traces log))).
      { assert (G : forall ts, (forall t, In t ts -> In t (l_traces log)) ->
          mapM (read_trace parse_float parse_date (text_globals show_value (l_globals log))) (map (trace_elem veq log) ts) = Ok (map (reread_trace log) ts)).
        { induction ts as [|t ts IH]; intros Hin; [reflexivity|]. cbn [map mapM].
          destruct (w_traces _ _ _ W t (Hin t (or_introl eq_refl))) as [_ [H1 H2]].
          rewrite read_trace_ok; [|exact H1|intros e He; apply (H2 e He)]. cbn [bind]. rewrite IH by (intros t' Ht; apply Hin; right; exact Ht). reflexivity. }
        apply G. auto. }
      rewrite Em. reflexivity.
  Qed.

  Lemma Forall2_map_r {A B} (R : A -> B -> Prop) (f : A -> B) l : (forall x, In x l -> R x (f x)) -> Forall2 R l (map f l).
  Proof. induction l as [|x l IH]; intros H; cbn; constructor; [apply H; left; reflexivity|apply IH; intros y Hy; apply H; right; exact Hy]. Qed.

  Lemma round_trip_proof log : writable parse_float parse_date log -> l_properties log = [] ->
    exists doc log', serialize_log_to_tree veq log = Ok doc /\ read_log_from_tree parse_float parse_date doc = Ok log' /\
      l_attrs log' = l_attrs log /\
      Forall2 (fun x x' => fst x' = fst x /\ same_dict (snd x) (snd x')) (l_extensions log) (l_extensions log') /\
      l_classifiers log' = l_classifiers log /\ l_properties log' = [] /\
      l_globals log' = text_globals show_value (l_globals log) /\
      Forall2 (fun t t' =>
        is_dict (t_attrs t') /\
        (forall k, dget str_eq_dec (t_attrs t') k = expected show_value veq (dget str_eq_dec (l_globals log) (str "trace")) (t_attrs t) k) /\
        Forall2 (fun e e' => is_dict e' /\
          forall k, dget str_eq_dec e' k = expected show_value veq (dget str_eq_dec (l_globals log) (str "event")) e k)
          (t_events t) (t_events t')) (l_traces log) (l_traces log').
  Proof.
    intros W Hp. destruct (read_write_proof log W Hp) as [doc [E1 E2]]. exists doc, (reread_log log).
    split; [exact E1|]. split; [exact E2|]. unfold reread_log. cbn [l_traces l_attrs l_extensions l_classifiers l_properties l_globals].
    split; [reflexivity|]. split; [|split; [reflexivity|split; [reflexivity|split; [reflexivity|]]]].
    - apply Forall2_map_r. intros [n c] Hin. cbn [fst snd]. split; [reflexivity|].
      destruct (w_ext_content _ _ _ W n c Hin) as [Hd Hk]. split; [exact Hd|]. split.
      + unfold norm_ext, is_dict. cbn. constructor; [|repeat constructor; intros []]. intros [H|[]]. discriminate H.
      + intros k. unfold norm_ext, getd. cbn [dget].
        destruct (str_eq_dec k ext_prefix) as [Ep|Ep]; [|destruct (str_eq_dec k ext_uri) as [Eu|Eu]].
        * rewrite Ep. assert (Hx : exists p, dget str_eq_dec c ext_prefix = Some p) by (apply (dget_Some_key str_eq_dec), Hk; left; reflexivity).
          destruct Hx as [p ->]. reflexivity.
        * rewrite Eu. assert (Hx : exists p, dget str_eq_dec c ext_uri = Some p) by (apply (dget_Some_key str_eq_dec), Hk; right; reflexivity).
          destruct Hx as [p ->]. reflexivity.
        * apply (dget_None str_eq_dec). rewrite Hk. intros [H|H]; [apply Ep; exact H|apply Eu; exact H].
    - apply Forall2_map_r. intros t Ht. destruct (w_traces _ _ _ W t Ht) as [H1 [_ H2]].
      assert (Hg : forall n g, In (n, g) (l_globals log) -> is_dict g) by (intros n g Hin; apply (w_globals_content _ _ _ W n g Hin)).
      destruct (reread_expected veq log tag_trace (t_attrs t) Hg H1) as [A1 A2].
      split; [exact A1|]. split; [exact A2|]. cbn [t_events reread_trace]. apply Forall2_map_r. intros e He.
      apply (reread_expected veq log tag_event e Hg). apply (H2 e He).
  Qed.

  (** exactness without globals *)
  Lemma reread_plain log entity d : l_globals log = [] -> is_dict d -> (forall k v, In (k, v) d -> plain v) ->
    reread_payload veq log (text_globals show_value (l_globals log)) entity d = d.
  Proof.
    intros Hg Hd Hp. unfold reread_payload. rewrite Hg. cbn [text_globals map from_defaults dget].
    assert (E : map (fun kv => (fst kv, reread (snd kv))) (kept_items veq log entity d) = d).
    { unfold kept_items. clear Hd. induction d as [|[k v] d IH]; [reflexivity|]. cbn [filter fst snd].
      unfold check_if_default_value at 1. rewrite Hg. cbn [dget negb andb].
      assert (Hv : plain v) by (apply (Hp k v); left; reflexivity).
      assert (Hr : should_serialize v = true /\ reread v = v) by (destruct v; cbn in *; subst; tauto).
      destruct Hr as [-> Hr]. cbn [map fst snd]. rewrite Hr, IH; [reflexivity|]. intros k' v' Hin. apply (Hp k' v'). right; exact Hin. }
    rewrite E. unfold from_defaults. cbn [dget]. apply over_nil. exact Hd.
  Qed.

  Lemma exact_round_trip_proof log : writable parse_float parse_date log -> l_properties log = [] -> l_globals log = [] ->
    (forall t, In t (l_traces log) -> (forall k v, In (k, v) (t_attrs t) -> plain v) /\
       forall e, In e (t_events t) -> forall k v, In (k, v) e -> plain v) ->
    exists doc log', serialize_log_to_tree veq log = Ok doc /\ read_log_from_tree parse_float parse_date doc = Ok log' /\
      l_traces log' = l_traces log.
  Proof.
    intros W Hp Hg Hpl. destruct (read_write_proof log W Hp) as [doc [E1 E2]]. exists doc, (reread_log log).
    split; [exact E1|]. split; [exact E2|]. unfold reread_log. cbn [l_traces].
    rewrite <- (map_id (l_traces log)) at 2. apply map_ext_in. intros t Ht. destruct (Hpl t Ht) as [P1 P2].
    destruct (w_traces _ _ _ W t Ht) as [D1 [_ D2]]. unfold reread_trace.
    rewrite (reread_plain log tag_trace (t_attrs t) Hg D1 P1).
    assert (E : map (reread_payload veq log (text_globals show_value (l_globals log)) tag_event) (t_events t) = t_events t).
    { rewrite <- (map_id (t_events t)) at 2. apply map_ext_in. intros e He. apply (reread_plain log tag_event e Hg); [apply (D2 e He)|apply (P2 e He)]. }
    rewrite E. destruct t; reflexivity.
  Qed.

  (** properties *)
  Lemma property_fails log : writable parse_float parse_date log -> l_properties log <> [] ->
    match serialize_log_to_tree veq log with
    | Ok doc => read_log_from_tree parse_float parse_date doc = Err KeyError
    | Err e => e = TypeError /\ exists k v, In (k, v) (l_properties log) /\ forall s, v <> VStr s
    end.
  Proof.
    intros W Hp. rewrite serialize_ok by (intros n g Hin; exact (proj2 (w_globals_content _ _ _ W n g Hin))).
    destruct (forallb _ (l_properties log)) eqn:Ef.
    - unfold read_log_from_tree. cbn [attrib_of children_of].
      assert (Ea : set_all [] (l_attrs log) = l_attrs log) by (apply over_nil; exact (w_attrs _ _ _ W)).
      rewrite Ea. change (fold_left (fun acc kv => dset str_eq_dec acc (fst kv) (snd kv)) (l_attrs log) []) with (over [] (l_attrs log)).
      rewrite (over_nil (l_attrs log)) by exact (w_attrs _ _ _ W).
      unfold doc_children. rewrite app_assoc, loopM_app, read_doc_prefix by exact W. cbn [bind].
      destruct (l_properties log) as [|[k v] props]; [congruence|]. cbn [map app]. rewrite loopM_cons.
      match goal with |- bind (bind (read_child ?st (prop_elem (k, v))) _) _ = _ => assert (E : read_child st (prop_elem (k, v)) = Err KeyError) end.
      { unfold XesModel.read_child. cbn [prop_elem tag_of fst snd].
        change (str_eqb (get_tag_wo_xmlns tag_string) tag_trace) with false.
        change (str_eqb (get_tag_wo_xmlns tag_string) tag_extension) with false.
        change (str_eqb (get_tag_wo_xmlns tag_string) tag_classifier) with false.
        match goal with |- context [is_value_tag ?x] => change (is_value_tag x) with true end. cbv iota.
        unfold add_value, parse_value_tag. change (attrib_of (prop_elem (k, v))) with [(k, show_value v)].
        change (tag_of (prop_elem (k, v))) with tag_string.
        unfold dgetitem. cbn [dget]. destruct (str_eq_dec attr_value k) as [Ev|Ev]; cbn [bind]; [|reflexivity].
        change (str_eqb (get_tag_wo_xmlns tag_string) tag_string) with true. cbv iota zeta.
        destruct (str_eq_dec attr_key k) as [Ek|Ek]; [exfalso; rewrite <- Ev in Ek; discriminate|]. reflexivity. }
      rewrite E. reflexivity.
    - split; [reflexivity|]. clear -Ef. induction (l_properties log) as [|[k v] l IH]; [discriminate|]. cbn [forallb snd] in Ef.
      destruct v as [s| | | | | | |]; try (exists k; eexists; split; [left; reflexivity|intros s H; discriminate]).
      cbn [andb] in Ef. destruct (IH Ef) as [k' [v' [H1 H2]]]. exists k', v'. split; [right; exact H1|exact H2].
  Qed.
  (** values *)
  Lemma Forall2_nth {A B} (R : A -> B -> Prop) l l' n x x' : Forall2 R l l' -> nth_error l n = Some x -> nth_error l' n = Some x' -> R x x'.
  Proof. intros H. revert n. induction H; intros [|n] H1 H2; cbn in *; try discriminate; [congruence|eauto]. Qed.

  Lemma Forall2_nth_ex {A B} (R : A -> B -> Prop) l l' n x : Forall2 R l l' -> nth_error l n = Some x -> exists x', nth_error l' n = Some x' /\ R x x'.
  Proof. intros H. revert n. induction H; intros [|n] H1; cbn in *; try discriminate; [injection H1 as <-; eauto|eauto]. Qed.

  Lemma lost_values_proof log n m t e k v : writable parse_float parse_date log -> l_properties log = [] ->
    nth_error (l_traces log) n = Some t -> nth_error (t_events t) m = Some e -> dget str_eq_dec e k = Some v ->
    exists doc log' t' e', serialize_log_to_tree veq log = Ok doc /\ read_log_from_tree parse_float parse_date doc = Ok log' /\
      nth_error (l_traces log') n = Some t' /\ nth_error (t_events t') m = Some e' /\
      ((forall g, dget str_eq_dec (l_globals log) (str "event") = Some g -> dget str_eq_dec g k = None) ->
         (forall b, v = VBool b -> dget str_eq_dec e' k = Some (VBool true)) /\ (~ xes_type v -> dget str_eq_dec e' k = None)) /\
      (forall g dv, dget str_eq_dec (l_globals log) (str "event") = Some g -> dget str_eq_dec g k = Some dv -> veq dv v = true ->
         dget str_eq_dec e' k = Some (VStr (show_value dv))).
  Proof.
    intros W Hp Ht He Hk. destruct (round_trip_proof log W Hp) as [doc [log' [E1 [E2 [_ [_ [_ [_ [_ HF]]]]]]]]].
    destruct (Forall2_nth_ex _ _ _ n t HF Ht) as [t' [Ht' [_ [_ HE]]]].
    destruct (Forall2_nth_ex _ _ _ m e HE He) as [e' [He' [_ HX]]].
    exists doc, log', t', e'. do 4 (split; [assumption|]). specialize (HX k). unfold expected in HX. rewrite Hk in HX. split.
    - intros Hg. assert (Hd : match dget str_eq_dec (l_globals log) (str "event") with Some g => dget str_eq_dec g k | None => None end = None).
      { destruct (dget str_eq_dec (l_globals log) (str "event")) as [g|]; [apply Hg|]; reflexivity. }
      rewrite Hd in HX. split; [intros b ->; exact HX|]. intros Hv. destruct v; cbn in Hv; try (exfalso; apply Hv; exact I); exact HX.
    - intros g dv Hg Hdv Hv. rewrite Hg, Hdv, Hv in HX. destruct v; exact HX.
  Qed.

  (** globals whose type has no tag *)
  Lemma global_untyped log n g k v : In (n, g) (l_globals log) -> In (k, v) g -> ~ xes_type v -> serialize_log_to_tree veq log = Err KeyError.
  Proof.
    intros Hn Hk Hv. unfold serialize_log_to_tree.
    assert (G : forall g, (exists k v, In (k, v) g /\ ~ xes_type v) -> mapM (fun kv : pystr * value => create_value_tag (fst kv) (snd kv)) g = Err KeyError).
    { clear. induction g as [|[k v] g IH]; intros [k0 [v0 [Hin Hx]]]; [destruct Hin|]. cbn [mapM fst snd]. unfold create_value_tag at 1.
      destruct (type_name v) eqn:Et; [|reflexivity]. cbn [bind]. rewrite IH; [reflexivity|]. destruct Hin as [Hin|Hin]; [|eauto].
      exfalso. assert (v = v0) by congruence. subst v0. destruct v; cbn in *; try discriminate; apply Hx; exact I. }
    assert (G2 : forall gs, In (n, g) gs ->
      mapM (fun sc : pystr * dict pystr value => bind (mapM (fun kv => create_value_tag (fst kv) (snd kv)) (snd sc)) (fun c =>
            Ok (Elem tag_global [(attr_scope, fst sc)] c))) gs = Err KeyError).
    { induction gs as [|[n' g'] gs IH]; intros Hin; [destruct Hin|]. cbn [mapM fst snd].
      destruct (mapM (fun kv : pystr * value => create_value_tag (fst kv) (snd kv)) g') as [c|e] eqn:Em.
      - cbn [bind]. destruct Hin as [Hin|Hin]; [injection Hin as -> ->; rewrite G in Em by eauto; discriminate|]. rewrite IH by exact Hin. reflexivity.
      - cbn [bind]. f_equal. clear -Em. revert e Em. induction g' as [|[k v] g' IH]; intros e Em; [discriminate|]. cbn [mapM fst snd] in Em.
        unfold create_value_tag at 1 in Em. destruct (type_name v); [|cbn in Em; congruence]. cbn [bind] in Em.
        destruct (mapM _ g') eqn:E; cbn [bind] in Em; [discriminate|]. injection Em as <-. eapply IH. reflexivity. }
    rewrite G2 by exact Hn. reflexivity.
  Qed.

  (** extensions without prefix or uri *)
  Lemma ext_missing log n c doc : (forall n c, In (n, c) (l_extensions log) -> is_dict c) ->
    In (n, c) (l_extensions log) -> ~ (In (str "prefix") (dkeys c) /\ In (str "uri") (dkeys c)) ->
    serialize_log_to_tree veq log = Ok doc -> read_log_from_tree parse_float parse_date doc = Err KeyError.
  Proof.
    intros Hd Hin Hmiss. unfold serialize_log_to_tree.
    match goal with |- context [mapM ?f (l_globals log)] => destruct (mapM f (l_globals log)) as [gl|]; [|discriminate] end. cbn [bind].
    match goal with |- context [mapM ?f (l_traces log)] => destruct (mapM f (l_traces log)) as [ts|]; [|discriminate] end. cbn [bind].
    destruct (forallb _ _); [|discriminate]. intros [= <-]. unfold read_log_from_tree. cbn [children_of attrib_of].
    change (map (fun kv : pystr * dict pystr pystr => Elem tag_extension (set_all [(ext_name, fst kv)] (snd kv)) []) (l_extensions log))
      with (map ext_elem (l_extensions log)). rewrite loopM_app.
    assert (G : forall exts st, (forall n c, In (n, c) exts -> is_dict c) -> In (n, c) exts -> loopM read_child (map ext_elem exts) st = Err KeyError).
    { induction exts as [|[n' c'] exts IH]; intros [lg tr] Hdd Hi; [destruct Hi|]. cbn [map]. rewrite loopM_cons.
      assert (Hc' : NoDup (dkeys c')) by (apply (Hdd n' c'); left; reflexivity).
      assert (E : read_child (lg, tr) (ext_elem (n', c')) =
        bind (dgetitem str_eq_dec (over [(ext_name, n')] c') ext_name) (fun n =>
        bind (dgetitem str_eq_dec (over [(ext_name, n')] c') ext_prefix) (fun p =>
        bind (dgetitem str_eq_dec (over [(ext_name, n')] c') ext_uri) (fun u =>
        Ok (upd_ext lg (dset str_eq_dec (l_extensions lg) n [(ext_prefix, p); (ext_uri, u)]), tr))))) by reflexivity.
      rewrite E. clear E. unfold dgetitem. rewrite !(dget_over c') by exact Hc'.
      change (dget str_eq_dec [(ext_name, n')] ext_prefix) with (@None pystr).
      change (dget str_eq_dec [(ext_name, n')] ext_uri) with (@None pystr).
      change (dget str_eq_dec [(ext_name, n')] ext_name) with (Some n').
      destruct (dget str_eq_dec c' ext_name); cbn [bind];
        (destruct (dget str_eq_dec c' ext_prefix) eqn:Ep; cbn [bind]; [|reflexivity]);
        (destruct (dget str_eq_dec c' ext_uri) eqn:Eu; cbn [bind]; [|reflexivity]);
        (destruct Hi as [Hi|Hi]; [|apply IH; [intros n0 c0 H0; apply (Hdd n0 c0); right; exact H0|exact Hi]]);
        injection Hi as -> ->; exfalso; apply Hmiss; split; apply (dget_Some_key str_eq_dec); eauto. }
    rewrite G by assumption. reflexivity.
  Qed.
End RT.
