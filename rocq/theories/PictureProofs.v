(** Lemmas for C54. *)
From Coq Require Import Permutation.
From Verif Require Import Py PyFacts XesModel XesProofs WireModel ConstModel ClientModel BackendModel DecodeModel
  ResultSpec ResultProofs SplitProofs PictureSpec.

Lemma show_int_inj a b : show_int a = show_int b -> a = b.
Proof. intros H. assert (E : parse_int (show_int a) = parse_int (show_int b)) by (rewrite H; reflexivity).
  rewrite !parse_show_int in E. injection E as ->. reflexivity. Qed.
Lemma node_name_inj a b : word a -> word b -> node_name a = node_name b -> a = b.
Proof. intros Ha Hb H. apply signed_inj; try assumption. apply show_int_inj. exact H. Qed.

Lemma node_names_app a b : node_names (a ++ b) = node_names a ++ node_names b.
Proof. apply flat_map_app. Qed.
Lemma edges_app a b : edges (a ++ b) = edges a ++ edges b.
Proof. apply flat_map_app. Qed.
Lemma node_names_nodes {A} (f : A -> gvcall) (name : A -> pystr) l :
  (forall x, exists a b c, f x = GvNode (name x) a b c) -> node_names (map f l) = map name l.
Proof. intros H. induction l as [|x l IH]; [reflexivity|]. cbn [map node_names flat_map]. destruct (H x) as (a & b & c & ->).
  cbn. f_equal. exact IH. Qed.
Lemma edges_nodes {A} (f : A -> gvcall) l : (forall x, exists n a b c, f x = GvNode n a b c) -> edges (map f l) = [].
Proof. intros H. induction l as [|x l IH]; [reflexivity|]. cbn [map edges flat_map]. destruct (H x) as (n & a & b & c & ->). exact IH. Qed.
Lemma node_names_edges {A} (f : A -> gvcall) l : (forall x, exists a b c, f x = GvEdge a b c) -> node_names (map f l) = [].
Proof. intros H. induction l as [|x l IH]; [reflexivity|]. cbn [map node_names flat_map]. destruct (H x) as (a & b & c & ->). exact IH. Qed.
Lemma edges_edges {A} (t h l : A -> pystr) xs : edges (map (fun x => GvEdge (t x) (h x) (l x)) xs) = map (fun x => (t x, h x, l x)) xs.
Proof. induction xs as [|x xs IH]; [reflexivity|]. cbn. f_equal. exact IH. Qed.

Lemma in_marking_marked m id : word id -> marking_words m -> in_marking (held_marking m) (signed id) = true <-> marked m id.
Proof.
  intros Hid Hm. unfold in_marking, held_marking, marked. destruct m as [l|].
  - rewrite existsb_exists. split.
    + intros (x & Hx & E). apply in_map_iff in Hx. destruct Hx as ((p & k) & <- & Hp). cbn in E.
      apply Z.eqb_eq in E. apply signed_inj in E; [|apply (Hm l (p, k) eq_refl Hp)|exact Hid]. subst p. exists l, k. split; [reflexivity|exact Hp].
    + intros (l' & k & [= <-] & Hin). exists (held_single (id, k)). split; [apply in_map; exact Hin|]. cbn. apply Z.eqb_refl.
  - split; [discriminate|intros (l & k & E & _); discriminate E].
Qed.

Definition held_net (n : rnet) : petri_net :=
  mkNet (map (fun p => (signed (fst p), held_place p)) (rn_places n))
        (map (fun t => (signed (rt_id t), held_transition t)) (rn_transitions n))
        (held_marking (rn_initial n)) (held_marking (rn_final n)).
Lemma dvalues_map {A V} (k : A -> Z) (v : A -> V) l : dvalues (map (fun x => (k x, v x)) l) = map v l.
Proof. unfold dvalues. rewrite map_map. reflexivity. Qed.

Lemma draw_place_node net names p : exists a b c, draw_place net names p = GvNode (show_int (pl_id p)) a b c.
Proof. unfold draw_place. destruct (in_marking (pn_initial net) (pl_id p)); [eauto|]. destruct (in_marking (pn_final net) (pl_id p)); eauto. Qed.

Lemma node_names_draw_arcs ann l : node_names (flat_map (draw_arcs ann) l) = [].
Proof. induction l as [|t l IH]; [reflexivity|]. cbn [flat_map]. unfold draw_arcs at 1. rewrite !node_names_app, IH.
  rewrite !node_names_edges by (intros; eauto). reflexivity. Qed.

Lemma draw_names net names ann :
  node_names (draw_petri_net net names ann) = map (fun p => show_int (pl_id p)) (dvalues (pn_places net)) ++ map (fun t => show_int (tr_id t)) (dvalues (pn_transitions net)).
Proof.
  unfold draw_petri_net. rewrite !node_names_app, node_names_draw_arcs, app_nil_r.
  rewrite (node_names_nodes _ (fun p => show_int (pl_id p))) by (intros; apply draw_place_node).
  rewrite (node_names_nodes draw_transition (fun t => show_int (tr_id t))) by (intros; eexists _, _, _; reflexivity). reflexivity.
Qed.

Lemma draw_held_names n names ann :
  node_names (draw_petri_net (held_net n) names ann) = map node_name (map fst (rn_places n) ++ map rt_id (rn_transitions n)).
Proof.
  rewrite draw_names. unfold held_net; cbn [pn_places pn_transitions]. rewrite !dvalues_map, !map_map, map_app, !map_map. reflexivity.
Qed.

Lemma draw_held_edges n names ann :
  edges (draw_petri_net (held_net n) names ann) =
  map (fun x => (node_name (fst (fst x)), node_name (snd (fst x)), annotation_label ann (snd x))) (arcs_of n).
Proof.
  unfold draw_petri_net. rewrite !edges_app. rewrite edges_nodes by (intros x; destruct (draw_place_node (held_net n) names x) as (a & b & c & ->); eauto).
  rewrite edges_nodes by (intros; eexists _, _, _, _; reflexivity). cbn [app held_net pn_transitions]. rewrite dvalues_map.
  unfold arcs_of. induction (rn_transitions n) as [|t ts IH]; [reflexivity|].
  cbn [map flat_map]. rewrite edges_app, IH, map_app. f_equal. unfold draw_arcs, held_transition; cbn [tr_in tr_out tr_id].
  rewrite !map_map, edges_app, map_app. cbn [ar_place held_arc]. f_equal.
  - rewrite edges_edges, map_map. apply map_ext. intros a. reflexivity.
  - rewrite edges_edges, map_map. apply map_ext. intros a. reflexivity.
Qed.

Lemma NoDup_map_on {A B} (f : A -> B) l : (forall x y, In x l -> In y l -> f x = f y -> x = y) -> NoDup l -> NoDup (map f l).
Proof.
  intros Hf H. induction H as [|x l Hx H IH]; [constructor|]. cbn. constructor.
  - intros Hin. apply in_map_iff in Hin. destruct Hin as (y & E & Hy). apply Hf in E; [subst; contradiction|right; exact Hy|left; reflexivity].
  - apply IH. intros a b Ha Hb. apply Hf; right; assumption.
Qed.

Lemma ids_words n : net_ok n -> forall id, In id (map fst (rn_places n) ++ map rt_id (rn_transitions n)) -> word id.
Proof.
  intros H id Hin. apply in_app_or in Hin. destruct Hin as [Hin|Hin]; apply in_map_iff in Hin; destruct Hin as (x & <- & Hx).
  - apply (nk_place_words n H x Hx).
  - apply (nk_transition_words n H x Hx).
Qed.

Lemma pictures_held n names ann : net_ok n -> apart n ->
  pictures names (annotation_label ann) n (draw_petri_net (held_net n) names ann).
Proof.
  intros H Hap.
  assert (Hplace : forall id name, In (id, name) (rn_places n) ->
            In (draw_place (held_net n) names (held_place (id, name))) (draw_petri_net (held_net n) names ann)).
  { intros id name Hin. unfold draw_petri_net. apply in_or_app. left. apply in_map. unfold held_net; cbn [pn_places]. rewrite dvalues_map. apply in_map. exact Hin. }
  assert (Hw : forall id name, In (id, name) (rn_places n) -> word id) by (intros id name Hin; apply (nk_place_words n H _ Hin)).
  split.
  - rewrite draw_held_names. apply NoDup_map_on.
    + intros x y Hx Hy. apply node_name_inj; apply (ids_words n H); assumption.
    + apply NoDup_app; [apply H|apply H|]. intros id Hp Ht. apply in_map_iff in Hp. apply in_map_iff in Ht.
      destruct Hp as (p & E & Hp), Ht as (t & <- & Ht). exact (Hap p t Hp Ht E).
  - intros s. rewrite draw_held_names, in_map_iff. split.
    + intros (id & <- & Hin). exists id. split; [|reflexivity]. apply in_app_or. exact Hin.
    + intros (id & Hin & ->). exists id. split; [reflexivity|]. apply in_or_app. exact Hin.
  - intros id name Hin Hi. apply Hplace in Hin as Hd. unfold draw_place, held_place in Hd. cbn [pl_id fst pn_initial held_net] in Hd.
    replace (in_marking (held_marking (rn_initial n)) (signed id)) with true in Hd; [exact Hd|].
    symmetry. apply in_marking_marked; [apply (Hw _ _ Hin)|apply H|exact Hi].
  - intros id name Hin Hi Hf. apply Hplace in Hin as Hd. unfold draw_place, held_place in Hd. cbn [pl_id fst pn_initial pn_final held_net] in Hd.
    replace (in_marking (held_marking (rn_initial n)) (signed id)) with false in Hd.
    + replace (in_marking (held_marking (rn_final n)) (signed id)) with true in Hd; [exact Hd|].
      symmetry. apply in_marking_marked; [apply (Hw _ _ Hin)|apply H|exact Hf].
    + symmetry. apply not_true_is_false. intros E. apply Hi. apply in_marking_marked in E; [exact E|apply (Hw _ _ Hin)|apply H].
  - intros id name Hin Hi Hf. apply Hplace in Hin as Hd. unfold draw_place, held_place in Hd. cbn [pl_id pl_name fst snd pn_initial pn_final held_net] in Hd.
    replace (in_marking (held_marking (rn_initial n)) (signed id)) with false in Hd.
    + replace (in_marking (held_marking (rn_final n)) (signed id)) with false in Hd; [exact Hd|].
      symmetry. apply not_true_is_false. intros E. apply Hf. apply in_marking_marked in E; [exact E|apply (Hw _ _ Hin)|apply H].
    + symmetry. apply not_true_is_false. intros E. apply Hi. apply in_marking_marked in E; [exact E|apply (Hw _ _ Hin)|apply H].
  - intros t Ht. unfold draw_petri_net. apply in_or_app. right. apply in_or_app. left. unfold held_net; cbn [pn_transitions]. rewrite dvalues_map, map_map.
    apply in_map_iff. exists t. split; [|exact Ht]. unfold draw_transition, held_transition. cbn. reflexivity.
  - rewrite draw_held_edges. apply Permutation_refl.
Qed.

Lemma view_net_proof float_repr names ann show n values g : net_ok n -> apart n ->
  value_grpc (str "petri_net") (VNet n) = Some g -> dget str_eq_dec values (str "petri_net") = Some g ->
  exists calls, leaf_show float_repr (mkOpts names ann show) LViewPetriNet values = Ok (ShCalls calls) /\
  pictures names (annotation_label ann) n calls.
Proof.
  intros H Hap Hg Hv. injection Hg as <-. eexists. split.
  - cbn [leaf_show vo_names vo_annotation]. unfold DecodeModel.pick. change const_petri_net with (str "petri_net"). unfold dgetitem. rewrite Hv. cbn [bind]. reflexivity.
  - cbn [as_petri_net]. rewrite petri_net_proof by exact H. apply pictures_held; assumption.
Qed.

(** The two pictures agree on what they show. *)
Lemma Permutation_node_names a b : Permutation a b -> Permutation (node_names a) (node_names b).
Proof. intros H. unfold node_names. apply Permutation_flat_map. exact H. Qed.
Lemma Permutation_edges a b : Permutation a b -> Permutation (edges a) (edges b).
Proof. intros H. unfold edges. apply Permutation_flat_map. exact H. Qed.

Lemma map_inj_on {A B} (f : A -> B) (P : A -> Prop) l : (forall x y, P x -> P y -> f x = f y -> x = y) ->
  forall l', Forall P l -> Forall P l' -> map f l = map f l' -> l = l'.
Proof.
  intros Hf. induction l as [|x l IH]; intros [|y l'] Hl Hl' E; try discriminate; [reflexivity|].
  injection E as Exy E. inversion Hl; inversion Hl'; subst. f_equal; [apply Hf; assumption|apply IH; assumption].
Qed.
Lemma Permutation_map_on {A B} (f : A -> B) (P : A -> Prop) l l' : (forall x y, P x -> P y -> f x = f y -> x = y) ->
  Forall P l -> Forall P l' -> Permutation (map f l) (map f l') -> Permutation l l'.
Proof.
  intros Hf Hl Hl' H. apply Permutation_map_inv in H. destruct H as (l3 & E & Hp).
  assert (E' : l = l3); [|subst l3; apply Permutation_sym; exact Hp]. apply (map_inj_on f P); [exact Hf|exact Hl| |exact E].
  rewrite Forall_forall in *. intros x Hx. apply Hl'. apply Permutation_sym in Hp. apply (Permutation_in _ Hp Hx).
Qed.

(** The node of a given name is unique in a picture. *)
Lemma node_unique calls name a b : NoDup (node_names calls) -> forall l1 s1 f1 l2 s2 f2,
  a = GvNode name l1 s1 f1 -> b = GvNode name l2 s2 f2 -> In a calls -> In b calls -> a = b.
Proof.
  intros H l1 s1 f1 l2 s2 f2 -> ->. revert H. induction calls as [|c calls IH]; intros H Ha Hb; [destruct Ha|].
  assert (Hin : forall l s f, In (GvNode name l s f) calls -> In name (node_names calls)).
  { intros l s f Hin. unfold node_names. apply in_flat_map. eexists. split; [exact Hin|]. left. reflexivity. }
  cbn [node_names flat_map] in H. destruct c as [n l s f|t h l].
  - cbn in H. inversion H as [|x y Hn H']; subst. destruct Ha as [Ha|Ha], Hb as [Hb|Hb].
    + rewrite <- Ha, <- Hb. reflexivity.
    + injection Ha as -> _ _ _. exfalso. apply Hn. eapply Hin. exact Hb.
    + injection Hb as -> _ _ _. exfalso. apply Hn. eapply Hin. exact Ha.
    + apply IH; assumption.
  - destruct Ha as [Ha|Ha]; [discriminate|]. destruct Hb as [Hb|Hb]; [discriminate|]. apply IH; assumption.
Qed.

Lemma marked_dec m id : marked m id \/ ~ marked m id.
Proof.
  unfold marked. destruct m as [l|]; [|right; intros (l & k & E & _); discriminate E].
  destruct (in_dec Z.eq_dec id (map fst l)) as [H|H].
  - left. apply in_map_iff in H. destruct H as ((i & k) & E & Hin). cbn in E. subst i. exists l, k. split; [reflexivity|exact Hin].
  - right. intros (l' & k & [= <-] & Hin). apply H. apply in_map_iff. exists (id, k). split; [reflexivity|exact Hin].
Qed.
(** A place is drawn as a filled node. *)
Lemma place_node names label n calls id : pictures names label n calls -> In id (map fst (rn_places n)) ->
  exists name l s, In (id, name) (rn_places n) /\ In (GvNode (node_name id) l s true) calls /\ s <> str "box".
Proof.
  intros H Hin. apply in_map_iff in Hin. destruct Hin as ((i & name) & E & Hin). cbn in E. subst i.
  destruct (marked_dec (rn_initial n) id) as [Hi|Hi].
  - eexists name, _, _. split; [exact Hin|]. split; [eapply (pic_initial _ _ _ _ H); eassumption|discriminate].
  - destruct (marked_dec (rn_final n) id) as [Hf|Hf].
    + eexists name, _, _. split; [exact Hin|]. split; [eapply (pic_final _ _ _ _ H); eassumption|discriminate].
    + eexists name, _, _. split; [exact Hin|]. split; [eapply (pic_other _ _ _ _ H); eassumption|discriminate].
Qed.

Lemma same_places_1 label label' n m c c' names : net_ok n -> net_ok m -> pictures names label n c -> pictures names label' m c' ->
  Permutation c c' -> forall id, In id (map fst (rn_places n)) -> In id (map fst (rn_places m)).
Proof.
  intros Hn Hm Pn Pm Hp id Hin.
  destruct (place_node _ _ _ _ _ Pn Hin) as (name & l & s & Hpl & Hnode & Hbox).
  assert (Hc' : In (GvNode (node_name id) l s true) c') by (apply (Permutation_in _ Hp Hnode)).
  assert (Hname : In (node_name id) (node_names c')).
  { unfold node_names. apply in_flat_map. eexists. split; [exact Hc'|left; reflexivity]. }
  apply (pic_nodes _ _ _ _ Pm) in Hname. destruct Hname as (id' & Hid' & E).
  assert (Hw : word id) by (apply (ids_words n Hn); apply in_or_app; left; exact Hin).
  assert (Hw' : word id') by (apply (ids_words m Hm); apply in_or_app; exact Hid').
  apply node_name_inj in E; [|assumption|assumption]. subst id'. destruct Hid' as [Hid'|Hid']; [exact Hid'|].
  apply in_map_iff in Hid'. destruct Hid' as (t & E & Ht). subst id.
  pose proof (pic_transition _ _ _ _ Pm t Ht) as Hb.
  pose proof (node_unique c' _ _ _ (pic_distinct _ _ _ _ Pm) _ _ _ _ _ _ eq_refl eq_refl Hc' Hb) as E. discriminate E.
Qed.

Lemma same_transitions_1 label label' n m c c' names : net_ok n -> net_ok m -> pictures names label n c -> pictures names label' m c' ->
  Permutation c c' -> forall t, In t (rn_transitions n) ->
  exists t', In t' (rn_transitions m) /\ rt_id t' = rt_id t /\ text_of (rt_data t') = text_of (rt_data t).
Proof.
  intros Hn Hm Pn Pm Hp t Ht.
  pose proof (pic_transition _ _ _ _ Pn t Ht) as Hb. apply (Permutation_in _ Hp) in Hb.
  assert (Hname : In (node_name (rt_id t)) (node_names c')).
  { unfold node_names. apply in_flat_map. eexists. split; [exact Hb|left; reflexivity]. }
  apply (pic_nodes _ _ _ _ Pm) in Hname. destruct Hname as (id' & Hid' & E).
  assert (Hw : word (rt_id t)) by (apply (nk_transition_words n Hn _ Ht)).
  assert (Hw' : word id') by (apply (ids_words m Hm); apply in_or_app; exact Hid').
  apply node_name_inj in E; [|assumption|assumption]. subst id'. destruct Hid' as [Hid'|Hid'].
  - destruct (place_node _ _ _ _ _ Pm Hid') as (name & l & s & _ & Hnode & Hbox).
    pose proof (node_unique c' _ _ _ (pic_distinct _ _ _ _ Pm) _ _ _ _ _ _ eq_refl eq_refl Hnode Hb) as E. discriminate E.
  - apply in_map_iff in Hid'. destruct Hid' as (t' & E & Ht'). exists t'. split; [exact Ht'|]. split; [exact E|].
    pose proof (pic_transition _ _ _ _ Pm t' Ht') as Hb'. rewrite E in Hb'.
    pose proof (node_unique c' _ _ _ (pic_distinct _ _ _ _ Pm) _ _ _ _ _ _ eq_refl eq_refl Hb' Hb) as E'. injection E' as E'. exact E'.
Qed.

Lemma arc_ends_words n : net_ok n -> Forall (fun x => word (fst x) /\ word (snd x)) (map (fun x => (fst (fst x), snd (fst x))) (arcs_of n)).
Proof.
  intros H. apply Forall_forall. intros e He. apply in_map_iff in He. destruct He as (x & <- & Hx). unfold arcs_of in Hx. apply in_flat_map in Hx.
  destruct Hx as (t & Ht & Hx). apply in_app_or in Hx. destruct Hx as [Hx|Hx]; apply in_map_iff in Hx; destruct Hx as (a & <- & Ha); cbn.
  - split; [apply (nk_arc_words n H t a Ht (in_or_app _ _ _ (or_introl Ha)))|apply (nk_transition_words n H t Ht)].
  - split; [apply (nk_transition_words n H t Ht)|apply (nk_arc_words n H t a Ht (in_or_app _ _ _ (or_intror Ha)))].
Qed.

Lemma same_arcs label label' n m c c' names : net_ok n -> net_ok m -> pictures names label n c -> pictures names label' m c' ->
  Permutation c c' -> Permutation (map (fun x => (fst (fst x), snd (fst x))) (arcs_of n)) (map (fun x => (fst (fst x), snd (fst x))) (arcs_of m)).
Proof.
  intros Hn Hm Pn Pm Hp. apply Permutation_edges in Hp.
  pose proof (Permutation_trans (Permutation_trans (Permutation_sym (pic_arcs _ _ _ _ Pn)) Hp) (pic_arcs _ _ _ _ Pm)) as H.
  apply (Permutation_map (fun e => (fst (fst e), snd (fst e)))) in H. rewrite !map_map in H. cbn [fst snd] in H.
  apply (Permutation_map_on (fun e => (node_name (fst e), node_name (snd e))) (fun e => word (fst e) /\ word (snd e))).
  - intros [a b] [a' b'] (Ha & Hb) (Ha' & Hb') E. cbn in *. injection E as E1 E2.
    apply node_name_inj in E1; [|assumption|assumption]. apply node_name_inj in E2; [|assumption|assumption]. subst. reflexivity.
  - apply arc_ends_words. exact Hn.
  - apply arc_ends_words. exact Hm.
  - rewrite !map_map. cbn [fst snd]. exact H.
Qed.

(** Without names, marks are told from the shapes. *)
Lemma marks_1 label label' n m c c' : net_ok n -> net_ok m -> pictures false label n c -> pictures false label' m c' ->
  Permutation c c' -> forall id, In id (map fst (rn_places n)) ->
  (marked (rn_initial n) id -> marked (rn_initial m) id) /\
  (~ marked (rn_initial n) id -> marked (rn_final n) id -> ~ marked (rn_initial m) id /\ marked (rn_final m) id).
Proof.
  intros Hn Hm Pn Pm Hp id Hin. pose proof (same_places_1 _ _ _ _ _ _ _ Hn Hm Pn Pm Hp id Hin) as Hin'.
  apply in_map_iff in Hin. destruct Hin as ((i & nm) & E & Hin). cbn in E. subst i.
  apply in_map_iff in Hin'. destruct Hin' as ((i & nm') & E & Hin'). cbn in E. subst i.
  assert (Hu : forall l s l2 s2, In (GvNode (node_name id) l s true) c -> In (GvNode (node_name id) l2 s2 true) c' -> l = l2 /\ s = s2).
  { intros l s l2 s2 H1 H2. apply (Permutation_in _ Hp) in H1.
    pose proof (node_unique c' _ _ _ (pic_distinct _ _ _ _ Pm) _ _ _ _ _ _ eq_refl eq_refl H1 H2) as E. injection E as -> ->. auto. }
  assert (H' : (marked (rn_initial m) id /\ In (GvNode (node_name id) (str "<&#9679;>") (str "circle") true) c') \/
               (~ marked (rn_initial m) id /\ marked (rn_final m) id /\ In (GvNode (node_name id) (str "<&#9679;>") (str "doublecircle") true) c') \/
               In (GvNode (node_name id) [] (str "circle") true) c').
  { destruct (marked_dec (rn_initial m) id) as [Hi|Hi]; [left; split; [exact Hi|eapply (pic_initial _ _ _ _ Pm); eassumption]|right].
    destruct (marked_dec (rn_final m) id) as [Hf|Hf]; [left|right].
    - split; [exact Hi|]. split; [exact Hf|]. eapply (pic_final _ _ _ _ Pm); eassumption.
    - apply (pic_other _ _ _ _ Pm id nm'); assumption. }
  split.
  - intros Hi. pose proof (pic_initial _ _ _ _ Pn _ _ Hin Hi) as Hd.
    destruct H' as [(Hr & _)|[(_ & _ & H2)|H2]]; [exact Hr| |]; destruct (Hu _ _ _ _ Hd H2) as [E1 E2]; discriminate.
  - intros Hi Hf. pose proof (pic_final _ _ _ _ Pn _ _ Hin Hi Hf) as Hd.
    destruct H' as [(_ & H2)|[(Hr & Hr' & _)|H2]]; [|split; assumption|]; destruct (Hu _ _ _ _ Hd H2) as [E1 E2]; discriminate.
Qed.

(** Graphs. *)
Lemma graph_nodes_edges gr :
  let calls := draw_graph (mkGraph (map (fun n => mkNode (fst n) match snd n with Some s => s | None => [] end) (rg_nodes gr))
          (map (fun e => mkEdge (fst (fst e)) (snd (fst e)) match snd e with Some s => s | None => [] end) (rg_edges gr))) in
  node_names calls = map (fun n => show_int (fst n)) (rg_nodes gr) /\
  edges calls = map (fun e => (show_int (fst (fst e)), show_int (snd (fst e)), text_of (snd e))) (rg_edges gr) /\
  forall n, In n (rg_nodes gr) -> In (GvNode (show_int (fst n)) (text_of (snd n)) (str "circle") true) calls.
Proof.
  cbn zeta. unfold draw_graph. cbn [g_nodes g_edges]. rewrite !map_map. cbn [nd_id nd_data ed_from ed_to ed_data]. rewrite node_names_app, edges_app. split; [|split].
  - rewrite (node_names_nodes _ (fun n => show_int (fst n))) by (intros; eauto). rewrite node_names_edges by (intros; eauto). apply app_nil_r.
  - rewrite edges_nodes by (intros; eauto). rewrite edges_edges. reflexivity.
  - intros n Hn. apply in_or_app. left. apply in_map_iff. exists n. split; [reflexivity|exact Hn].
Qed.

Lemma view_graph_proof float_repr o l gr values g : l = LViewGraph \/ l = LViewDfg -> graph_ok gr ->
  value_grpc (str "graph") (VGraph gr) = Some g -> dget str_eq_dec values (str "graph") = Some g ->
  exists calls, leaf_show float_repr o l values = Ok (ShCalls calls) /\
  NoDup (node_names calls) /\
  (forall s, In s (node_names calls) <-> exists id, In id (map fst (rg_nodes gr)) /\ s = show_int id) /\
  (forall n, In n (rg_nodes gr) -> In (GvNode (show_int (fst n)) (text_of (snd n)) (str "circle") true) calls) /\
  Permutation (edges calls) (map (fun e => (show_int (fst (fst e)), show_int (snd (fst e)), text_of (snd e))) (rg_edges gr)).
Proof.
  intros Hl Hok Hg Hv. injection Hg as <-. destruct (graph_nodes_edges gr) as (Hn & He & Hin). eexists. split.
  - destruct Hl as [-> | ->]; cbn [leaf_show]; unfold DecodeModel.pick, dgetitem; change const_graph with (str "graph"); rewrite Hv; cbn [bind as_graph];
      rewrite graph_proof; reflexivity.
  - rewrite Hn, He. split; [|split; [|split; [exact Hin|apply Permutation_refl]]].
    + rewrite <- (map_map fst show_int). apply NoDup_map_on; [|exact Hok]. intros x y _ _. apply show_int_inj.
    + intros s. rewrite <- (map_map fst show_int), in_map_iff. split; intros (id & A & B); exists id; auto.
Qed.

Lemma edges_join_proof names label n calls : net_ok n -> closed_arcs n -> pictures names label n calls ->
  forall tail head l, In (tail, head, l) (edges calls) ->
  exists p t, In p (map fst (rn_places n)) /\ In t (map rt_id (rn_transitions n)) /\
  (tail = node_name p /\ head = node_name t \/ tail = node_name t /\ head = node_name p).
Proof.
  intros Hn Hc Hp tail head l Hin. apply (Permutation_in _ (pic_arcs _ _ _ _ Hp)) in Hin. apply in_map_iff in Hin.
  destruct Hin as (x & E & Hx). injection E as <- <- _. unfold arcs_of in Hx. apply in_flat_map in Hx. destruct Hx as (t & Ht & Hx).
  assert (Ht' : In (rt_id t) (map rt_id (rn_transitions n))) by (apply in_map; exact Ht).
  apply in_app_or in Hx. destruct Hx as [Hx|Hx]; apply in_map_iff in Hx; destruct Hx as (a & <- & Ha); cbn [fst snd]; exists (ra_place a), (rt_id t);
    (split; [apply (Hc t a Ht); apply in_or_app; auto|split; [exact Ht'|]]); auto.
Qed.

Lemma same_picture_proof names label label' n m calls calls' : net_ok n -> net_ok m ->
  pictures names label n calls -> pictures names label' m calls' -> Permutation calls calls' ->
  (forall id, In id (map fst (rn_places n)) <-> In id (map fst (rn_places m))) /\
  (forall id s, (exists t, In t (rn_transitions n) /\ rt_id t = id /\ text_of (rt_data t) = s) <->
                (exists t, In t (rn_transitions m) /\ rt_id t = id /\ text_of (rt_data t) = s)) /\
  Permutation (map (fun x => (fst (fst x), snd (fst x))) (arcs_of n)) (map (fun x => (fst (fst x), snd (fst x))) (arcs_of m)) /\
  (names = false -> forall id, In id (map fst (rn_places n)) ->
     (marked (rn_initial n) id <-> marked (rn_initial m) id) /\
     (~ marked (rn_initial n) id -> (marked (rn_final n) id <-> marked (rn_final m) id))).
Proof.
  intros Hn Hm Pn Pm Hp. pose proof (Permutation_sym Hp) as Hp'.
  assert (Hpl : forall id, In id (map fst (rn_places n)) <-> In id (map fst (rn_places m))).
  { intros id. split; [apply (same_places_1 _ _ _ _ _ _ _ Hn Hm Pn Pm Hp)|apply (same_places_1 _ _ _ _ _ _ _ Hm Hn Pm Pn Hp')]. }
  split; [exact Hpl|]. split; [|split].
  - intros id s. split; intros (t & Ht & <- & <-).
    + apply (same_transitions_1 _ _ _ _ _ _ _ Hn Hm Pn Pm Hp _ Ht).
    + apply (same_transitions_1 _ _ _ _ _ _ _ Hm Hn Pm Pn Hp' _ Ht).
  - apply (same_arcs _ _ _ _ _ _ _ Hn Hm Pn Pm Hp).
  - intros -> id Hid. destruct (marks_1 _ _ _ _ _ _ Hn Hm Pn Pm Hp id Hid) as [A B].
    destruct (marks_1 _ _ _ _ _ _ Hm Hn Pm Pn Hp' id (proj1 (Hpl id) Hid)) as [A' B'].
    split; [split; assumption|]. intros Hi. split; intros Hf.
    + apply (B Hi Hf).
    + apply B'; [|exact Hf]. intros Hi'. apply Hi, A', Hi'.
Qed.

Lemma dget_signed {A} (f : A -> pystr) (l : list (Z * A)) : NoDup (map fst l) -> (forall x, In x l -> word (fst x)) ->
  forall i, word i ->
  (forall c, In (i, c) l -> dget Z.eq_dec (map (fun a => (signed (fst a), f (snd a))) l) (signed i) = Some (f c)) /\
  (~ In i (map fst l) -> dget Z.eq_dec (map (fun a => (signed (fst a), f (snd a))) l) (signed i) = None).
Proof.
  intros Hn Hw i Hi. induction l as [|(j & b) l IH]; [split; [intros c []|reflexivity]|].
  cbn [map fst snd] in Hn. inversion Hn as [|x y Hj Hn']; subst.
  destruct IH as [IH1 IH2]; [exact Hn'|intros x Hx; apply Hw; right; exact Hx|].
  assert (Hwj : word j) by (apply (Hw (j, b)); left; reflexivity).
  cbn [map dget fst snd]. split.
  - intros c [E|Hin].
    + injection E as -> ->. destruct (Z.eq_dec (signed i) (signed i)) as [_|C]; [reflexivity|contradiction C; reflexivity].
    + destruct (Z.eq_dec (signed i) (signed j)) as [E|_]; [|apply IH1; exact Hin].
      apply signed_inj in E; [|assumption|assumption]. subst j. exfalso. apply Hj. apply in_map_iff. exists (i, c). auto.
  - intros Hni. destruct (Z.eq_dec (signed i) (signed j)) as [E|_].
    + apply signed_inj in E; [|assumption|assumption]. subst j. exfalso. apply Hni. left. reflexivity.
    + apply IH2. intros C. apply Hni. right. exact C.
Qed.

Lemma annotated_net_proof float_repr names ann show terminate n values g : net_ok n -> apart n ->
  value_grpc (str "petri_net") (VNet n) = Some g -> dget str_eq_dec values (str "petri_net") = Some g ->
  (forall counts a, NoDup (map fst counts) -> (forall x, In x counts -> word (fst x) /\ word (snd x)) ->
     value_grpc (str "petri_net_count_annotation") (VCounts counts) = Some a ->
     dget str_eq_dec values (str "petri_net_count_annotation") = Some a ->
     exists calls label, leaf_show float_repr (mkOpts names ann show) (LAnnotate ACount terminate) values = Ok (ShCalls calls) /\
     pictures names label n calls /\
     forall i, word i -> (forall c, In (i, c) counts -> label i = show_int (signed c)) /\ (~ In i (map fst counts) -> label i = [])) /\
  (forall k key freqs a, (k = AFrequency /\ key = str "petri_net_frequency_annotation" \/
                          k = ATraceFrequency /\ key = str "petri_net_trace_frequency_annotation") ->
     NoDup (map fst freqs) -> (forall x, In x freqs -> word (fst x)) ->
     value_grpc key (VFreqs freqs) = Some a -> dget str_eq_dec values key = Some a ->
     exists calls label, leaf_show float_repr (mkOpts names ann show) (LAnnotate k terminate) values = Ok (ShCalls calls) /\
     pictures names label n calls /\
     forall i, word i -> (forall f, In (i, f) freqs -> label i = float_repr (f32 f)) /\ (~ In i (map fst freqs) -> label i = [])).
Proof.
  intros H Hap Hg Hv. injection Hg as <-. split.
  - intros counts a Hn Hw Ha Hva. injection Ha as <-. eexists _, (annotation_label (Some (map (fun a => (signed (fst a), show_int (signed (snd a)))) counts))). split; [|split].
    + cbn [leaf_show vo_names]. unfold DecodeModel.pick, dgetitem. change const_petri_net with (str "petri_net").
      change (annotation_key ACount) with (str "petri_net_count_annotation"). rewrite Hv. cbn [bind]. rewrite Hva. cbn [bind].
      cbn [get_annotation as_counts]. rewrite counts_proof by assumption. cbn [as_petri_net]. rewrite petri_net_proof by exact H. reflexivity.
    + apply (pictures_held n names); assumption.
    + intros i Hi. cbn [annotation_label].
      destruct (dget_signed (fun c => show_int (signed c)) counts Hn (fun x Hx => proj1 (Hw x Hx)) i Hi) as [A B].
      split; [intros c Hc; rewrite (A c Hc); reflexivity|intros Hni; rewrite (B Hni); reflexivity].
  - intros k key freqs a Hk Hn Hw Ha Hva. eexists _, (annotation_label (Some (map (fun a => (signed (fst a), float_repr (f32 (snd a)))) freqs))). split; [|split].
    + destruct Hk as [[-> ->]|[-> ->]]; injection Ha as <-; cbn [leaf_show vo_names]; unfold DecodeModel.pick, dgetitem; change const_petri_net with (str "petri_net");
        [change (annotation_key AFrequency) with (str "petri_net_frequency_annotation")|change (annotation_key ATraceFrequency) with (str "petri_net_trace_frequency_annotation")];
        rewrite Hv; cbn [bind]; rewrite Hva; cbn [bind get_annotation as_freqs]; rewrite freqs_proof by assumption; cbn [as_petri_net]; rewrite petri_net_proof by exact H; reflexivity.
    + apply (pictures_held n names); assumption.
    + intros i Hi. cbn [annotation_label].
      destruct (dget_signed (fun c => float_repr (f32 c)) freqs Hn Hw i Hi) as [A B].
      split; [intros c Hc; rewrite (A c Hc); reflexivity|intros Hni; rewrite (B Hni); reflexivity].
Qed.

(** A literal net is well formed. *)
Ltac literal_word := split; cbn; (discriminate || reflexivity).
Ltac small_net :=
  constructor; cbn;
  [repeat constructor; cbn; intuition discriminate|repeat constructor; cbn; intuition discriminate
  |intros p Hp; repeat (destruct Hp as [Hp|Hp]; [subst p; literal_word|]); destruct Hp
  |intros p Hp; repeat (destruct Hp as [Hp|Hp]; [subst p; literal_word|]); destruct Hp
  |intros t a Ht Ha; repeat (destruct Ht as [Ht|Ht];
     [subst t; cbn in Ha; repeat (destruct Ha as [Ha|Ha]; [subst a; split; [literal_word|split; literal_word]|]); destruct Ha|]); destruct Ht
  |intros l p E Hp; (discriminate E || (injection E as <-; repeat (destruct Hp as [Hp|Hp]; [subst p; split; literal_word|]); destruct Hp))
  |intros l p E Hp; (discriminate E || (injection E as <-; repeat (destruct Hp as [Hp|Hp]; [subst p; split; literal_word|]); destruct Hp))].
