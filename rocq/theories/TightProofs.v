(** Proofs of the further theorems on activity instances, XES documents and indices. *)
From Coq Require Import Permutation Sorted Lia Reals.
From Verif Require Import Py PyFacts LogModel EqSpec HashModel PatternModel PatternSpec TreeModel ActModel ActSpec ActLogModel ActLogSpec ActLogProofs
  XesModel XesSpec XesProofs XesLogProofs TightSpec PosModel FilterModel.

(* ---- full_fill ---- *)
Lemma desc_perm x l : Permutation (insert_start_desc x l) (x :: l).
Proof. induction l as [|y r IH]; cbn; [reflexivity|]. destruct (_ <=? _); [reflexivity|]. rewrite IH. apply perm_swap. Qed.
Lemma desc_sorted x l : StronglySorted (fun x y : inst => in_start y <= in_start x) l ->
  StronglySorted (fun x y : inst => in_start y <= in_start x) (insert_start_desc x l).
Proof.
  induction 1 as [|y r Hs IH Hf]; cbn; [repeat constructor|].
  destruct (Nat.leb_spec (in_start y) (in_start x)).
  - constructor; [constructor; assumption|]. constructor; [assumption|]. eapply Forall_impl; [|exact Hf]. cbn. intros a Ha. lia.
  - constructor; [exact IH|]. rewrite Forall_forall. intros z Hz. apply (Permutation_in _ (desc_perm x r)) in Hz. destruct Hz as [<-|Hz]; [lia|].
    rewrite Forall_forall in Hf. auto.
Qed.
Lemma desc_filter s x l : StronglySorted (fun x y : inst => in_start y <= in_start x) l ->
  filter (fun z : inst => in_start z =? s) (insert_start_desc x l) = filter (fun z => in_start z =? s) (x :: l).
Proof.
  induction 1 as [|y r Hs IH Hf]; [reflexivity|]. cbn [insert_start_desc].
  destruct (Nat.leb_spec (in_start y) (in_start x)); [reflexivity|].
  cbn [filter]. cbn [filter] in IH. rewrite IH. destruct (Nat.eqb_spec (in_start x) s), (Nat.eqb_spec (in_start y) s); try reflexivity. lia.
Qed.
Lemma sort_desc_spec l : latest_first l (sort_start_desc l).
Proof.
  unfold latest_first. induction l as [|x l (P & S & F)]; cbn [sort_start_desc fold_right].
  - split; [reflexivity|]. split; [constructor|]. reflexivity.
  - split; [|split].
    + rewrite (desc_perm x). constructor. exact P.
    + apply desc_sorted. exact S.
    + intros s. rewrite (desc_filter _ _ _ S). cbn [filter]. change (fold_right insert_start_desc [] l) with (sort_start_desc l). rewrite F. reflexivity.
Qed.
Definition gaps_of (vs : list visit) : list (nat * nat) := flat_map (fun v => match v with Gap a b => [(a, b)] | Act _ => [] end) vs.
Lemma gaps_of_in vs a b : In (a, b) (gaps_of vs) <-> In (Gap a b) vs.
Proof.
  unfold gaps_of. rewrite in_flat_map. split.
  - intros ([c d|x] & H & Hi); cbn in Hi; [|destruct Hi]. destruct Hi as [E|[]]. injection E as <- <-. exact H.
  - intros H. exists (Gap a b). split; [exact H|left; reflexivity].
Qed.
Lemma gaps_of_sorted n : forall l lo, ordered lo n l ->
  StronglySorted (fun p q : nat * nat => snd p < fst q) (gaps_of (process_trace_activities lo n l)) /\
  forall a b, In (a, b) (gaps_of (process_trace_activities lo n l)) -> lo <= a.
Proof.
  induction l as [|x r IH]; intros lo H; cbn [process_trace_activities ordered] in *.
  - destruct (lo <? n); cbn; split; try (repeat constructor); intros a b; [intros [E|[]]; injection E as <- <-; lia|intros []].
  - destruct H as (H1 & H2 & H3). destruct (IH _ H3) as (S & G). unfold in_end in *.
    unfold gaps_of in *. rewrite flat_map_app. destruct (Nat.ltb_spec lo (in_start x)) as [L|L]; cbn [flat_map app].
    + split.
      * constructor; [exact S|]. rewrite Forall_forall. intros [a b] Hi. apply G in Hi. cbn. lia.
      * intros a b [E|Hi]; [injection E as <- <-; lia|]. apply G in Hi. lia.
    + split; [exact S|]. intros a b Hi. apply G in Hi. lia.
Qed.
Lemma fill_fold (t : trace) (creator : list event -> list inst) : forall vs acc,
  fold_left (fun acc v => match v with Gap a b => acc ++ creator (slice_of (t_events t) a b) | Act _ => acc end) vs acc =
  acc ++ flat_map (fun ab => creator (piece (t_events t) (fst ab) (snd ab - fst ab))) (gaps_of vs).
Proof.
  induction vs as [|[a b|x] vs IH]; intros acc; cbn [fold_left].
  - cbn. rewrite app_nil_r. reflexivity.
  - rewrite IH, <- app_assoc. reflexivity.
  - apply IH.
Qed.
Lemma full_fill_proof creator l t : ordered 0 (length (t_events t)) l -> exists gaps,
  (forall a b, In (a, b) gaps <-> gap l (length (t_events t)) a b) /\ StronglySorted (fun p q => snd p < fst q) gaps /\
  latest_first (l ++ flat_map (fun ab => creator (piece (t_events t) (fst ab) (snd ab - fst ab))) gaps) (full_fill_trace creator l t).
Proof.
  intros H. exists (gaps_of (process_trace_activities 0 (length (t_events t)) l)). split; [|split].
  - intros a b. rewrite gaps_of_in. apply gaps_proof. exact H.
  - apply (gaps_of_sorted _ _ _ H).
  - unfold full_fill_trace. rewrite fill_fold. apply sort_desc_spec.
Qed.
Lemma full_fill_log_proof creator (l : eventlog) acts : length acts = length (l_traces l) ->
  length (full_fill_activities creator l acts) = length acts /\
  forall i a t, nth_error acts i = Some a -> nth_error (l_traces l) i = Some t ->
    nth_error (full_fill_activities creator l acts) i = Some (full_fill_trace creator a t).
Proof.
  unfold full_fill_activities, zip. intros E. split.
  - rewrite map_length, combine_length. lia.
  - revert E. generalize (l_traces l) as ts. clear l. induction acts as [|a' acts IH]; intros [|t' ts] E [|i] a t Ha Ht; cbn in *; try discriminate.
    + injection Ha as <-. injection Ht as <-. reflexivity.
    + apply IH; auto.
Qed.

(* ---- select by level ---- *)
Lemma select_level_proof acts level :
  length (select_traces_activities_for_activity_level acts level) = length acts /\
  forall i a, nth_error acts i = Some a -> exists r, nth_error (select_traces_activities_for_activity_level acts level) i = Some r /\
    r = filter (fun x => if Z.eq_dec (nd_level (an_data (in_node x))) level then true else false) a.
Proof.
  unfold select_traces_activities_for_activity_level. split; [apply map_length|].
  intros i a H. exists (filter (fun x => (inst_level x =? level)%Z) a). split; [apply map_nth_error; exact H|].
  apply filter_ext. intros x. unfold inst_level. destruct (Z.eq_dec _ _) as [->|N]; [apply Z.eqb_refl|]. apply Z.eqb_neq. exact N.
Qed.

(* ---- documents ---- *)
Lemma value_element_eq k v : xes_type v -> value_element k v = [val_elem k v].
Proof. destruct v as [s|z|b|s|s|es|ids|o]; try destruct b; intros H; try destruct H; reflexivity. Qed.
Lemma untyped_element k v : ~ xes_type v -> value_element k v = [].
Proof. destruct v; cbn; tauto. Qed.
Lemma flat_elements (d : dict pystr value) : (forall k v, In (k, v) d -> xes_type v) ->
  flat_map (fun kv => value_element (fst kv) (snd kv)) d = map (fun kv => val_elem (fst kv) (snd kv)) d.
Proof.
  induction d as [|[k v] d IH]; intros H; [reflexivity|]. cbn [flat_map map fst snd]. rewrite value_element_eq by (apply (H k); left; reflexivity).
  rewrite IH by (intros; eapply H; right; eassumption). reflexivity.
Qed.
Lemma payload_eq veq log entity d : payload veq (l_globals log) entity d = map (fun kv => val_elem (fst kv) (snd kv)) (kept_items veq log entity d).
Proof.
  unfold payload, kept_items. induction d as [|[k v] d IH]; [reflexivity|]. cbn [flat_map filter fst snd].
  change (declared veq (l_globals log) entity k v) with (check_if_default_value veq log entity k v).
  destruct (check_if_default_value veq log entity k v); cbn [negb andb app]; [exact IH|].
  destruct (should_serialize v) eqn:S.
  - rewrite value_element_eq by (apply should_serialize_xes; assumption). cbn [app map fst snd]. rewrite IH. reflexivity.
  - rewrite untyped_element; [exact IH|]. intros X. apply should_serialize_xes in X. congruence.
Qed.
Lemma document_proof pf pd veq log : writable pf pd log -> l_properties log = [] -> serialize_log_to_tree veq log = Ok (document veq log).
Proof.
  intros W Hp. rewrite (serialize_ok pf pd) by (intros n g Hin; exact (proj2 (w_globals_content _ _ _ W n g Hin))).
  rewrite Hp. cbn [forallb]. f_equal. unfold document, doc_children. rewrite Hp. f_equal.
  - apply (over_nil (l_attrs log)). exact (w_attrs _ _ _ W).
  - cbn [map app]. f_equal; [|f_equal; f_equal].
    + apply map_ext_in. intros [n c] Hin. unfold ext_elem. cbn [fst snd].
      destruct (w_ext_content _ _ _ W n c Hin) as (D & K). f_equal.
      change (set_all [(ext_name, n)] c) with (over [(ext_name, n)] c). rewrite over_fresh; [reflexivity|].
      constructor; [|exact D]. intros Hi. apply K in Hi. destruct Hi as [E|E]; vm_compute in E; discriminate.
    + apply map_ext_in. intros [n c] Hin. unfold global_elem. cbn [fst snd].
      rewrite flat_elements; [reflexivity|]. exact (proj2 (w_globals_content _ _ _ W n c Hin)).
    + apply map_ext_in. intros t Hin. unfold trace_elem. rewrite payload_eq. f_equal. f_equal. apply map_ext. intros e. rewrite payload_eq. reflexivity.
Qed.
Lemma read_boolean_proof pf pd ns attrs children s : ~ In 125%N ns -> dget str_eq_dec attrs (str "value") = Some s ->
  parse_value_tag pf pd (Elem (ns ++ str "}boolean") attrs children) = Ok (VBool (negb (str_eqb s []))) /\
  parse_value_tag pf pd (Elem (str "boolean") attrs children) = Ok (VBool (negb (str_eqb s []))).
Proof.
  intros Hn Hs. assert (T : get_tag_wo_xmlns (ns ++ str "}boolean") = str "boolean").
  { unfold get_tag_wo_xmlns. enough (after_brace (ns ++ str "}boolean") = Some (str "boolean")) as -> by reflexivity.
    induction ns as [|c ns IH]; [reflexivity|]. cbn [app after_brace].
    destruct (N.eqb_spec c 125) as [->|]; [elim Hn; left; reflexivity|]. apply IH. intros Hi. apply Hn. right. exact Hi. }
  unfold parse_value_tag, dgetitem. cbn [attrib_of tag_of]. change attr_value with (str "value"). rewrite Hs. cbn [bind]. rewrite T.
  split; destruct s; reflexivity.
Qed.

(* ---- indices ---- *)
Lemma pos_index_proof len i j : PosModel.py_index len i = Ok j <-> j < len /\ (i = Z.of_nat j \/ i = Z.of_nat j - Z.of_nat len)%Z.
Proof.
  unfold PosModel.py_index. destruct (Z.ltb_spec i 0) as [H|H].
  - destruct (Z.leb_spec 0 (i + Z.of_nat len)), (Z.ltb_spec (i + Z.of_nat len) (Z.of_nat len)); cbn [andb]; split;
      try (intros E; injection E as <-); try discriminate; try lia; intros (A & B); try lia. f_equal. lia.
  - destruct (Z.leb_spec 0 i), (Z.ltb_spec i (Z.of_nat len)); cbn [andb]; split; try (intros E; injection E as <-); try discriminate; try lia; intros (A & B); try lia.
    f_equal. lia.
Qed.
Lemma pos_index_fails len i e : PosModel.py_index len i = Err e -> e = IndexError.
Proof. unfold PosModel.py_index. destruct (_ && _); intros H; [discriminate|]. injection H as <-. reflexivity. Qed.
Lemma act_index_proof {A} (l : list A) i x : ActLogModel.py_index l i = Ok x <->
  exists j, nth_error l j = Some x /\ (i = Z.of_nat j \/ i = Z.of_nat j - Z.of_nat (length l))%Z.
Proof.
  unfold ActLogModel.py_index. split.
  - intros E. exists (Z.to_nat (if (i <? 0)%Z then i + Z.of_nat (length l) else i)%Z).
    destruct (Z.ltb_spec i 0) as [H|H].
    + destruct (Z.ltb_spec (i + Z.of_nat (length l)) 0); [discriminate|].
      destruct (nth_error l _) as [y|] eqn:N; [|discriminate]. injection E as ->. split; [reflexivity|lia].
    + destruct (Z.ltb_spec i 0); [lia|]. destruct (nth_error l _) as [y|] eqn:N; [|discriminate]. injection E as ->. split; [reflexivity|lia].
  - intros (j & N & H). assert (J : j < length l) by (apply nth_error_Some; congruence).
    destruct H as [->| ->].
    + destruct (Z.ltb_spec (Z.of_nat j) 0); [lia|]. destruct (Z.ltb_spec (Z.of_nat j) 0); [lia|]. rewrite Nat2Z.id, N. reflexivity.
    + destruct (Z.ltb_spec (Z.of_nat j - Z.of_nat (length l)) 0); [|lia].
      replace (Z.of_nat j - Z.of_nat (length l) + Z.of_nat (length l))%Z with (Z.of_nat j) by lia.
      destruct (Z.ltb_spec (Z.of_nat j) 0); [lia|]. rewrite Nat2Z.id, N. reflexivity.
Qed.
Lemma act_index_fails {A} (l : list A) i e : ActLogModel.py_index l i = Err e -> e = IndexError.
Proof. unfold ActLogModel.py_index. repeat destruct (_ <? _)%Z; try destruct (nth_error _ _); intros H; try discriminate; injection H as <-; reflexivity. Qed.
Lemma act_slice_proof {A} (l : list A) (a b : nat) (sa sb : bool) : a < length l -> b < length l ->
  py_slice l (if sa then Z.of_nat a - Z.of_nat (length l) else Z.of_nat a) (if sb then Z.of_nat b - Z.of_nat (length l) else Z.of_nat b) = piece l a (b - a).
Proof.
  intros Ha Hb. unfold py_slice. assert (B : forall c (s : bool), c < length l -> py_bound (length l) (if s then Z.of_nat c - Z.of_nat (length l) else Z.of_nat c) = c).
  { intros c s Hc. unfold py_bound. destruct s; [destruct (Z.ltb_spec (Z.of_nat c - Z.of_nat (length l)) 0)|destruct (Z.ltb_spec (Z.of_nat c) 0)]; lia. }
  rewrite !B by assumption. reflexivity.
Qed.
Lemma comparisons_proof : (forall x y, Rltb x y = true <-> (x < y)%R) /\ (forall x y, Rleb x y = true <-> (x <= y)%R).
Proof. unfold Rltb, Rleb. split; intros x y; [destruct (Rlt_dec x y)|destruct (Rle_dec x y)]; split; intros; try assumption; try reflexivity; try discriminate; contradiction. Qed.

(* ---- text logs that cannot be written ---- *)
From Verif Require Import TextModel.
Lemma event_name_named e s : eget e concept_name = Some (VStr s) -> event_name e = Ok s.
Proof. unfold event_name, egetitem, eget, dgetitem. intros H. rewrite H. reflexivity. Qed.
Lemma event_name_unnamed e : ~ named e -> event_name e = Err (name_error e).
Proof.
  unfold named, name_error, event_name, egetitem, eget, dgetitem. intros H. destruct (dget str_eq_dec e concept_name) as [v|] eqn:E; [|reflexivity].
  cbn [bind]. destruct v; try reflexivity. elim H. eexists. reflexivity.
Qed.
Lemma serialize_events_ok sep : forall es i acc, (forall e, In e es -> named e) -> exists s, serialize_events sep i es acc = Ok s.
Proof.
  induction es as [|e es IH]; intros i acc H; cbn [serialize_events]; [eexists; reflexivity|].
  destruct (H e (or_introl eq_refl)) as (s & Es). rewrite (event_name_named _ _ Es). cbn [bind]. apply IH. intros e' He. apply H. right. exact He.
Qed.
Lemma serialize_events_bad sep e : ~ named e -> forall pre post i acc, (forall e, In e pre -> named e) ->
  serialize_events sep i (pre ++ e :: post) acc = Err (name_error e).
Proof.
  intros B. induction pre as [|x pre IH]; intros post i acc H; cbn [app serialize_events].
  - rewrite event_name_unnamed by exact B. reflexivity.
  - destruct (H x (or_introl eq_refl)) as (s & Es). rewrite (event_name_named _ _ Es). cbn [bind]. apply IH. intros e' He. apply H. right. exact He.
Qed.
Lemma serialize_traces_bad ts es e : ~ named e -> forall traces pre post n i acc, flat_map t_events traces = pre ++ e :: post -> (forall e, In e pre -> named e) ->
  serialize_traces ts es n i traces acc = Err (name_error e).
Proof.
  intros B. induction traces as [|t traces IH]; intros pre post n i acc E H; cbn [flat_map] in E; [destruct pre; discriminate|].
  cbn [serialize_traces]. assert (C : (exists a b, t_events t = a ++ e :: b /\ forall e, In e a -> named e) \/
    (exists pre', flat_map t_events traces = pre' ++ e :: post /\ (forall e, In e (t_events t) -> named e) /\ forall e, In e pre' -> named e)).
  { clear IH. revert pre E H. induction (t_events t) as [|x es' IH]; intros pre E H.
    - right. exists pre. cbn in E. split; [exact E|]. split; [intros ? []|exact H].
    - destruct pre as [|y pre].
      + cbn in E. injection E as -> E. left. exists [], es'. split; [reflexivity|]. intros ? [].
      + cbn in E. injection E as -> E. destruct (IH pre E) as [(a & b & -> & Ha)|(p & Ep & H1 & H2)].
        * intros z Hz. apply H. right. exact Hz.
        * left. exists (y :: a), b. split; [reflexivity|]. intros z [<-|Hz]; [apply H; left; reflexivity|auto].
        * right. exists p. split; [exact Ep|]. split; [|exact H2]. intros z [<-|Hz]; [apply H; left; reflexivity|auto]. }
  destruct C as [(a & b & Ea & Ha)|(p & Ep & H1 & H2)].
  - rewrite Ea, serialize_events_bad by assumption. reflexivity.
  - destruct (serialize_events_ok es (t_events t) 0 acc H1) as (s & ->). cbn [bind]. eapply IH; eassumption.
Qed.
Lemma unwritable_proof log ts es pre e post : flat_map t_events (l_traces log) = pre ++ e :: post -> (forall e, In e pre -> named e) -> ~ named e ->
  serialize_log log ts es = Err (name_error e).
Proof. intros E H B. unfold serialize_log. eapply serialize_traces_bad; eassumption. Qed.
Lemma no_separator_proof s ss : parse_log_from_strings (s :: ss) [] = Err ValueError /\ parse_log_from_string s [] = Err ValueError.
Proof. split; reflexivity. Qed.

(* ---- further failures ---- *)
Lemma empty_log_proof (F : Type) (finish : list nat -> nat -> F) e cached :
  position_entropy finish [] e None = Err ValueError /\ position_entropy_fast finish [] e None cached = Err ValueError.
Proof. split; reflexivity. Qed.
Lemma bad_digits s neg e : read_digits s neg = Err e -> e = ValueError.
Proof. unfold read_digits. destruct s as [|d s]; [congruence|]. destruct (read_uint (d :: s)); congruence. Qed.
Lemma bad_int_proof s e : parse_int s = Err e -> e = ValueError.
Proof. unfold parse_int. destruct s as [|c s]; [congruence|]. destruct (N.eqb c 45); apply bad_digits. Qed.
Lemma bad_acts_proof uh st l t x e v : ordered 0 (length (t_events t)) l -> In x l ->
  In e (piece (t_events t) (in_start x) (in_length x)) -> eget e underlying_activities_key = Some v -> (forall ids, v <> VActs ids) ->
  st <> OtherStrategy -> new_trace_from_activities uh st l t = Err TypeError.
Proof.
  intros Ho Hx He Hv Hn Hs. unfold new_trace_from_activities.
  assert (M : forall A B (f : A -> result B) l, (forall x e, In x l -> f x = Err e -> e = TypeError) -> (exists x, In x l /\ f x = Err TypeError) -> mapM f l = Err TypeError).
  { clear. intros A B f. induction l as [|x l IH]; intros H (y & Hy & E); [destruct Hy|]. cbn [mapM].
    destruct (f x) as [b|e0] eqn:F; cbn [bind].
    - rewrite IH; [reflexivity|intros; eapply H; [right|]; eassumption|]. destruct Hy as [->|Hy]; [congruence|]. exists y. auto.
    - f_equal. apply (H x); [left; reflexivity|exact F]. }
  assert (T : forall e e0, get_underlying_activities e = Err e0 -> e0 = TypeError).
  { intros ev e0. unfold get_underlying_activities. destruct (eget ev _) as [[]|]; congruence. }
  assert (MT : forall es e0, mapM get_underlying_activities es = Err e0 -> e0 = TypeError).
  { induction es as [|a es IH]; cbn [mapM]; intros e0 E; [discriminate|]. destruct (get_underlying_activities a) eqn:F; cbn [bind] in E.
    - destruct (mapM _ es) eqn:G; cbn [bind] in E; [discriminate|]. injection E as <-. apply IH. reflexivity.
    - injection E as <-. apply (T a). exact F. }
  rewrite M; [reflexivity| |].
  - intros [a b|y] e0 Hin E; cbn [visit_events] in E.
    + pose proof (visits_inside _ _ _ Ho _ Hin) as I. destruct st; cbn [undefined_events] in E; try discriminate; try congruence.
      rewrite index_range_ok in E by (cbn in I; lia). discriminate.
    + unfold activity_event in E. destruct (mapM get_underlying_activities _) eqn:G; cbn [bind] in E; [discriminate|]. injection E as <-. eapply MT. exact G.
  - exists (Act x). split.
    + clear -Hx. generalize 0 as lo. induction l as [|y l IH]; intros lo; [destruct Hx|]. cbn [process_trace_activities]. apply in_or_app. right.
      destruct Hx as [->|Hx]; [left; reflexivity|right; auto].
    + cbn [visit_events]. unfold activity_event. rewrite slice_of_piece. rewrite M; [reflexivity|intros; eapply T; eassumption|].
      exists e. split; [exact He|]. unfold get_underlying_activities. rewrite Hv. destruct v; try reflexivity. elim (Hn ids). reflexivity.
Qed.
Lemma bad_repeat_proof (l : eventlog) d exs adjust t x : (inst_level x < d)%Z ->
  length (l_traces l) <= rs_trace_index (nd_repeat_set (an_data (in_node x))) -> promote_trace l d exs adjust t x = Err IndexError.
Proof.
  intros H N. unfold promote_trace. destruct (Z.ltb_spec d (inst_level x)); [lia|]. destruct (Z.eqb_spec (inst_level x) d); [lia|].
  unfold find_events_for_repeat_set. apply nth_error_None in N. rewrite N. reflexivity.
Qed.
