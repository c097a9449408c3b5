(** Building Petri nets and asking them (C97). *)
From Verif Require Import Py PyFacts InfoModel ReplayModel RInfoSpec AlphaProps PnetModel PnetSpec.
From Coq Require Import Permutation.

Lemma bcalls_app l1 : forall net l2, bcalls net (l1 ++ l2) = bind (bcalls net l1) (fun net => bcalls net l2).
Proof. induction l1 as [|c l1 IH]; intros net l2; cbn [app bcalls]; [reflexivity|]. destruct (bcall_step net c); cbn [bind]; [apply IH|reflexivity]. Qed.
Definition arcs (t : ptrans) : list parc := tr_out t ++ tr_in t.
Record built (l : list bcall) (net : bnet) : Prop := {
  bu_table : forall p, dget N.eq_dec (bn_table net) p = match before_place p l, after_place p l with [], [] => None | i, o => Some (i, o) end;
  bu_trans : forall id t, dget N.eq_dec (bn_trans net) id = Some t -> tr_id t = id /\ map arc_place (tr_in t) = before_transition id l /\ map arc_place (tr_out t) = after_transition id l;
  bu_known : forall id p, In (BToTransition p id) l \/ In (BToPlace id p) l -> exists t, dget N.eq_dec (bn_trans net) id = Some t;
  bu_fresh : forall id t, dget N.eq_dec (bn_trans net) id = Some t -> (id < bn_next net)%N /\ forall a, In a (arcs t) -> (arc_id a < bn_next net)%N;
  bu_unique : forall k1 k2 t1 t2 a1 a2, dget N.eq_dec (bn_trans net) k1 = Some t1 -> dget N.eq_dec (bn_trans net) k2 = Some t2 -> In a1 (arcs t1) -> In a2 (arcs t2) -> arc_id a1 = arc_id a2 -> k1 = k2 /\ a1 = a2;
  bu_keys : NoDup (dkeys (bn_trans net)) }.
Lemma table_of_spec l net p : built l net -> table_of (bn_table net) p = (before_place p l, after_place p l).
Proof. intros B. unfold table_of. rewrite (bu_table _ _ B). destruct (before_place p l), (after_place p l); reflexivity. Qed.
Lemma unused l net id : built l net -> dget N.eq_dec (bn_trans net) id = None -> before_transition id l = [] /\ after_transition id l = [].
Proof.
  intros B Hn. split.
  - destruct (before_transition id l) as [|p r] eqn:E; [reflexivity|]. assert (H : In p (before_transition id l)) by (rewrite E; left; reflexivity). apply in_flat_map in H. destruct H as ([| |q u|u q|] & Hc & H); try contradiction.
    destruct (N.eqb_spec u id) as [->|]; [|contradiction]. destruct (bu_known _ _ B id q (or_introl Hc)) as (t & Ht). congruence.
  - destruct (after_transition id l) as [|p r] eqn:E; [reflexivity|]. assert (H : In p (after_transition id l)) by (rewrite E; left; reflexivity). apply in_flat_map in H. destruct H as ([| |q u|u q|] & Hc & H); try contradiction.
    destruct (N.eqb_spec u id) as [->|]; [|contradiction]. destruct (bu_known _ _ B id q (or_intror Hc)) as (t & Ht). congruence.
Qed.
Lemma snoc_place p l c : before_place p (l ++ [c]) = before_place p l ++ before_place p [c] /\ after_place p (l ++ [c]) = after_place p l ++ after_place p [c] /\
  before_transition p (l ++ [c]) = before_transition p l ++ before_transition p [c] /\ after_transition p (l ++ [c]) = after_transition p l ++ after_transition p [c].
Proof. unfold before_place, after_place, before_transition, after_transition. rewrite !flat_map_app. repeat split. Qed.
Ltac snoc := repeat match goal with
  | |- context [before_place ?p (?l ++ [?c])] => rewrite (proj1 (snoc_place p l c))
  | |- context [after_place ?p (?l ++ [?c])] => rewrite (proj1 (proj2 (snoc_place p l c)))
  | |- context [before_transition ?p (?l ++ [?c])] => rewrite (proj1 (proj2 (proj2 (snoc_place p l c))))
  | |- context [after_transition ?p (?l ++ [?c])] => rewrite (proj2 (proj2 (proj2 (snoc_place p l c)))) end.
(** A transition gets one more arc. *)
Lemma arc_step l net c id t t' table : built l net -> dget N.eq_dec (bn_trans net) id = Some t ->
  (forall p, dget N.eq_dec table p = match before_place p (l ++ [c]), after_place p (l ++ [c]) with [], [] => None | i, o => Some (i, o) end) ->
  (tr_id t' = id /\ map arc_place (tr_in t') = before_transition id (l ++ [c]) /\ map arc_place (tr_out t') = after_transition id (l ++ [c])) ->
  (forall k, k <> id -> before_transition k [c] = [] /\ after_transition k [c] = []) ->
  (forall k p, c = BToTransition p k \/ c = BToPlace k p -> k = id) ->
  (exists new, arc_id new = bn_next net /\ forall a, In a (arcs t') -> In a (arcs t) \/ a = new) ->
  built (l ++ [c]) (mkBNet (bn_places net) (dset N.eq_dec (bn_trans net) id t') table (N.succ (bn_next net))).
Proof.
  intros B Ht Htab Hspec Hother Hk (new & Enew & Harcs). split; cbn [bn_table bn_trans bn_next].
  - exact Htab.
  - intros k u. rewrite dget_dset. destruct (N.eq_dec id k) as [<-|Hne]; [intros [= <-]; exact Hspec|]. intros Hu. destruct (bu_trans _ _ B k u Hu) as (A1 & A2 & A3). destruct (Hother k ltac:(congruence)) as (O1 & O2). snoc. rewrite O1, O2, !app_nil_r. auto.
  - intros k p H. rewrite dget_dset. destruct (N.eq_dec id k) as [|Hne]; [eauto|]. rewrite !in_app_iff in H. cbn [In] in H. destruct H as [[H|[H|[]]]|[H|[H|[]]]]; try (exfalso; apply Hne; symmetry; eapply Hk; eauto; fail); eapply bu_known; eauto.
  - intros k u. rewrite dget_dset. destruct (N.eq_dec id k) as [<-|Hne].
    + intros [= <-]. destruct (bu_fresh _ _ B id t Ht) as (F1 & F2). split; [lia|]. intros a Ha. destruct (Harcs a Ha) as [Ha'| ->]; [specialize (F2 a Ha'); lia|lia].
    + intros Hu. destruct (bu_fresh _ _ B k u Hu) as (F1 & F2). split; [lia|]. intros a Ha. specialize (F2 a Ha). lia.
  - assert (Old : forall k u a, dget N.eq_dec (dset N.eq_dec (bn_trans net) id t') k = Some u -> In a (arcs u) -> (exists u', dget N.eq_dec (bn_trans net) k = Some u' /\ In a (arcs u')) \/ (k = id /\ a = new)).
    { intros k u a. rewrite dget_dset. destruct (N.eq_dec id k) as [<-|Hne]; [intros [= <-] Ha; destruct (Harcs a Ha); eauto|eauto]. }
    intros k1 k2 t1 t2 a1 a2 H1 H2 I1 I2 Ea. destruct (Old _ _ _ H1 I1) as [(u1 & D1 & J1)|(-> & ->)], (Old _ _ _ H2 I2) as [(u2 & D2 & J2)|(-> & ->)].
    + eapply (bu_unique _ _ B); eauto.
    + destruct (bu_fresh _ _ B k1 u1 D1) as (_ & F). specialize (F a1 J1). lia.
    + destruct (bu_fresh _ _ B k2 u2 D2) as (_ & F). specialize (F a2 J2). lia.
    + auto.
  - apply dset_NoDup. apply (bu_keys _ _ B).
Qed.
Lemma some_snoc {A} (l : list A) x : exists y r, l ++ [x] = y :: r.
Proof. destruct l; cbn; eauto. Qed.
Lemma built_all next : forall l net, only_built l -> bcalls (bnet_empty next) l = Ok net -> built l net.
Proof.
  induction l as [|c l IH] using rev_ind; intros net Ho E.
  { cbn in E. injection E as <-. split; cbn; try discriminate; try constructor. all: intros; try discriminate. tauto. }
  rewrite bcalls_app in E. destruct (bcalls (bnet_empty next) l) as [n0|] eqn:E0; [|discriminate]. cbn [bind bcalls] in E.
  assert (B : built l n0) by (apply IH; [intros t Ht; apply (Ho t); apply in_or_app; auto|reflexivity]). clear IH.
  destruct c as [name|name silent|p id|id p|id]; cbn [bcall_step] in E.
  - cbn in E. injection E as <-. split; cbn [bn_table bn_trans bn_next].
    + intros p. snoc. cbn. rewrite !app_nil_r. apply (bu_table _ _ B).
    + intros id t Ht. snoc. cbn. rewrite !app_nil_r. apply (bu_trans _ _ B). exact Ht.
    + intros id p H. rewrite !in_app_iff in H. cbn [In] in H. apply (bu_known _ _ B id p). intuition discriminate.
    + intros id t Ht. destruct (bu_fresh _ _ B id t Ht) as (F1 & F2). split; [lia|]. intros a Ha. specialize (F2 a Ha). lia.
    + apply (bu_unique _ _ B).
    + apply (bu_keys _ _ B).
  - cbn [bind] in E. injection E as <-.
    assert (N0 : dget N.eq_dec (bn_trans n0) (bn_next n0) = None) by (destruct (dget N.eq_dec (bn_trans n0) (bn_next n0)) as [t|] eqn:D; [destruct (bu_fresh _ _ B _ _ D); lia|reflexivity]).
    split; cbn [bn_table bn_trans bn_next].
    + intros p. snoc. cbn. rewrite !app_nil_r. apply (bu_table _ _ B).
    + intros id t. rewrite dget_dset. snoc. cbn [before_transition after_transition flat_map app]. rewrite !app_nil_r. destruct (N.eq_dec (bn_next n0) id) as [<-|]; [intros [= <-]|apply (bu_trans _ _ B)]. destruct (unused _ _ _ B N0) as (-> & ->). repeat split.
    + intros id p H. rewrite dget_dset. destruct (N.eq_dec (bn_next n0) id); [eauto|]. rewrite !in_app_iff in H. cbn [In] in H. apply (bu_known _ _ B id p). intuition discriminate.
    + intros id t. rewrite dget_dset. destruct (N.eq_dec (bn_next n0) id) as [<-|]; [intros [= <-]; split; [lia|intros a []]|]. intros Ht. destruct (bu_fresh _ _ B id t Ht) as (F1 & F2). split; [lia|]. intros a Ha. specialize (F2 a Ha). lia.
    + intros k1 k2 t1 t2 a1 a2. rewrite !dget_dset. destruct (N.eq_dec (bn_next n0) k1) as [<-|]; [intros [= <-] _ []|]. destruct (N.eq_dec (bn_next n0) k2) as [<-|]; [intros _ [= <-] _ []|]. apply (bu_unique _ _ B).
    + apply dset_NoDup. apply (bu_keys _ _ B).
  - destruct (dget N.eq_dec (bn_trans n0) id) as [t|] eqn:Ht; [|discriminate]. rewrite (table_of_spec _ _ p B) in E. cbn [bind] in E. injection E as <-.
    destruct (bu_trans _ _ B id t Ht) as (A1 & A2 & A3). eapply arc_step; [exact B|exact Ht|..].
    + intros q. rewrite dget_dset. snoc. cbn [before_place after_place flat_map app]. rewrite !app_nil_r. destruct (N.eq_dec p q) as [<-|Hne].
      * rewrite N.eqb_refl. cbn [app]. destruct (some_snoc (after_place p l) id) as (y & r & ->). destruct (before_place p l); reflexivity.
      * destruct (N.eqb_spec p q); [contradiction|]. cbn [app]. rewrite app_nil_r. apply (bu_table _ _ B).
    + snoc. cbn [add_in tr_id tr_in tr_out before_transition after_transition flat_map app]. rewrite N.eqb_refl, map_app, A2, A3, !app_nil_r. auto.
    + intros k Hk. cbn. destruct (N.eqb_spec id k); [congruence|]. auto.
    + intros k q [H|H]; congruence.
    + exists (mkArc (bn_next n0) p). split; [reflexivity|]. intros a. unfold arcs. cbn [add_in tr_out tr_in]. rewrite !in_app_iff. cbn [In]. intuition.
  - destruct (dget N.eq_dec (bn_trans n0) id) as [t|] eqn:Ht; [|discriminate]. rewrite (table_of_spec _ _ p B) in E. cbn [bind] in E. injection E as <-.
    destruct (bu_trans _ _ B id t Ht) as (A1 & A2 & A3). eapply arc_step; [exact B|exact Ht|..].
    + intros q. rewrite dget_dset. snoc. cbn [before_place after_place flat_map app]. rewrite !app_nil_r. destruct (N.eq_dec p q) as [<-|Hne].
      * rewrite N.eqb_refl. cbn [app]. destruct (some_snoc (before_place p l) id) as (y & r & ->). reflexivity.
      * destruct (N.eqb_spec p q); [contradiction|]. cbn [app]. rewrite app_nil_r. apply (bu_table _ _ B).
    + snoc. cbn [add_out tr_id tr_in tr_out before_transition after_transition flat_map app]. rewrite N.eqb_refl, map_app, A2, A3, !app_nil_r. auto.
    + intros k Hk. cbn. destruct (N.eqb_spec id k); [congruence|]. auto.
    + intros k q [H|H]; congruence.
    + exists (mkArc (bn_next n0) p). split; [reflexivity|]. intros a. unfold arcs. cbn [add_out tr_out tr_in]. rewrite !in_app_iff. cbn [In]. intuition.
  - exfalso. apply (Ho id). apply in_or_app. right. left. reflexivity.
Qed.

(** A transition has an arc for each call which connected it, in the order of the calls. *)
Theorem C97_arcs : forall next l net, only_built l -> bcalls (bnet_empty next) l = Ok net -> forall id t, dget N.eq_dec (bn_trans net) id = Some t ->
  tr_id t = id /\ map arc_place (tr_in t) = before_transition id l /\ map arc_place (tr_out t) = after_transition id l.
Proof. intros next l net Ho E. apply (bu_trans _ _ (built_all _ _ _ Ho E)). Qed.
Print Assumptions C97_arcs.
Lemma map_trans_ok net ids : (forall id, In id ids -> exists t, dget N.eq_dec (bn_trans net) id = Some t) -> exists ts, map_transitions net ids = Ok ts /\ map (fun t => Some t) ts = map (dget N.eq_dec (bn_trans net)) ids.
Proof.
  induction ids as [|id ids IH]; intros H; [exists []; split; reflexivity|]. destruct (H id (or_introl eq_refl)) as (t & Ht). destruct IH as (ts & E & M); [intros k Hk; apply H; right; exact Hk|].
  exists (t :: ts). unfold map_transitions in *. cbn [mapM map]. rewrite Ht. cbn [bind]. rewrite E. cbn [bind]. split; [reflexivity|]. rewrite M. reflexivity.
Qed.
(** The transitions before and after a place, as they are in the net, are those it was connected to, once for each call; for a place which was
    never connected the question is a panic. *)
Theorem C97_neighbours : forall next l net, only_built l -> bcalls (bnet_empty next) l = Ok net -> forall p,
  (before_place p l = [] -> after_place p l = [] -> get_incoming_transitions net p = rpanic /\ get_outgoing_transitions net p = rpanic) /\
  (before_place p l <> [] \/ after_place p l <> [] -> exists incoming outgoing,
     get_incoming_transitions net p = Ok incoming /\ map (fun t => Some t) incoming = map (dget N.eq_dec (bn_trans net)) (before_place p l) /\
     get_outgoing_transitions net p = Ok outgoing /\ map (fun t => Some t) outgoing = map (dget N.eq_dec (bn_trans net)) (after_place p l)).
Proof.
  intros next l net Ho E p. assert (B := built_all _ _ _ Ho E). unfold get_incoming_transitions, get_outgoing_transitions, get_place_transitions. rewrite (bu_table _ _ B). split.
  - intros -> ->. split; reflexivity.
  - intros H. assert (Ex : match before_place p l, after_place p l with [], [] => None | i, o => Some (i, o) end = Some (before_place p l, after_place p l)) by (destruct (before_place p l), (after_place p l); try reflexivity; exfalso; destruct H; contradiction).
    rewrite Ex. cbn [bind fst snd]. destruct (map_trans_ok net (before_place p l)) as (i & Ei & Mi).
    { intros id Hid. apply in_flat_map in Hid. destruct Hid as ([| |q u|u q|] & Hc & Hu); try contradiction. destruct (N.eqb_spec q p); [|contradiction]. destruct Hu as [->|[]]. eapply (bu_known _ _ B); eauto. }
    destruct (map_trans_ok net (after_place p l)) as (o & Eo & Mo).
    { intros id Hid. apply in_flat_map in Hid. destruct Hid as ([| |q u|u q|] & Hc & Hu); try contradiction. destruct (N.eqb_spec q p); [|contradiction]. destruct Hu as [->|[]]. eapply (bu_known _ _ B); eauto. }
    exists i, o. auto.
Qed.
Print Assumptions C97_neighbours.
(** An arc is found by its id with its transition, in any order of the table; ids which no arc has are not found. *)
Theorem C97_arc : forall ord next l net, any_order ord -> only_built l -> bcalls (bnet_empty next) l = Ok net ->
  (forall id t a, dget N.eq_dec (bn_trans net) id = Some t -> In a (tr_in t) \/ In a (tr_out t) -> find_arc ord net (arc_id a) = Some (a, t)) /\
  (forall n a t, find_arc ord net n = Some (a, t) -> arc_id a = n /\ dget N.eq_dec (bn_trans net) (tr_id t) = Some t /\ (In a (tr_in t) \/ In a (tr_out t))).
Proof.
  intros ord next l net Hord Ho E. assert (B := built_all _ _ _ Ho E). unfold find_arc.
  assert (V : forall t, In t (ord 0 _ (dvalues (bn_trans net))) <-> exists id, dget N.eq_dec (bn_trans net) id = Some t).
  { intros t. split.
    - intros H. apply (Permutation_in _ (Hord 0 _ _)) in H. apply in_map_iff in H. destruct H as ([k u] & <- & H). exists k. apply In_dget; [apply (bu_keys _ _ B)|exact H].
    - intros (id & H). apply (Permutation_in _ (Permutation_sym (Hord 0 _ _))). apply dget_In in H. apply in_map_iff. exists (id, t). auto. }
  revert V. generalize (ord 0 _ (dvalues (bn_trans net))). intros ts V.
  assert (S : forall n a t, arc_in n ts = Some (a, t) -> In t ts /\ arc_id a = n /\ In a (arcs t)).
  { clear V. induction ts as [|u ts IH]; cbn [arc_in]; [discriminate|]. intros n a t. fold (arcs u). destruct (find _ (arcs u)) as [b|] eqn:F; [|intros H; destruct (IH _ _ _ H); split; [right|]; assumption].
    intros [= <- <-]. apply find_some in F. destruct F as (I & F). apply N.eqb_eq in F. split; [left; reflexivity|auto]. }
  split.
  - intros id t a Ht Ha. assert (Ia : In a (arcs t)) by (unfold arcs; apply in_or_app; tauto).
    destruct (arc_in (arc_id a) ts) as [[b u]|] eqn:F.
    + destruct (S _ _ _ F) as (Iu & Eb & Ib). apply V in Iu. destruct Iu as (k & Hk). destruct (bu_unique _ _ B k id u t b a Hk Ht Ib Ia Eb) as (-> & ->). congruence.
    + exfalso. assert (It : In t ts) by (apply V; eauto). revert F It. clear - Ia. induction ts as [|u ts IH]; intros F It; [exact It|]. destruct It as [->|It]; cbn [arc_in] in F.
      * fold (arcs t) in F. destruct (find _ (arcs t)) eqn:G; [discriminate|]. apply (find_none _ _ G) in Ia. rewrite N.eqb_refl in Ia. discriminate.
      * destruct (find _ (tr_out u ++ tr_in u)); [discriminate|]. auto.
  - intros n a t F. destruct (S _ _ _ F) as (It & Ea & Ia). apply V in It. destruct It as (k & Hk). split; [exact Ea|]. destruct (bu_trans _ _ B k t Hk) as (-> & _). split; [exact Hk|]. apply in_app_or in Ia. tauto.
Qed.
Print Assumptions C97_arc.
(** A call panics exactly if it connects a transition which is not in the net; places are not checked. *)
Theorem C97_panics : forall net c, (bcall_step net c = rpanic <-> exists p id, (c = BToTransition p id \/ c = BToPlace id p) /\ dget N.eq_dec (bn_trans net) id = None) /\
  (bcall_step net c <> rpanic -> exists net', bcall_step net c = Ok net').
Proof.
  intros net [name|name silent|p id|id p|id]; cbn [bcall_step].
  1, 2, 5: split; [split; [discriminate|intros (p & k & [H|H] & _); discriminate]|eauto].
  all: destruct (dget N.eq_dec (bn_trans net) id) as [t|] eqn:D; [|split; [split; [eauto 6|reflexivity]|contradiction]].
  all: destruct (table_of _ p); split; [split; [discriminate|intros (q & k & [H|H] & Hn); [congruence|congruence]]|eauto].
Qed.
Print Assumptions C97_panics.
(** All transitions with a name are found, or none if there are none. *)
Theorem C97_by_name : forall ord net name, any_order ord -> match find_all_transitions_by_name ord net name with
  | None => forall t, In t (dvalues (bn_trans net)) -> tr_name t <> name
  | Some l => l <> [] /\ forall t, In t l <-> In t (dvalues (bn_trans net)) /\ tr_name t = name end.
Proof.
  intros ord net name Hord. unfold find_all_transitions_by_name. set (l := filter _ _).
  assert (H : forall t, In t l <-> In t (dvalues (bn_trans net)) /\ tr_name t = name).
  { intros t. unfold l. rewrite filter_In. rewrite str_eqb_eq. split; intros (A & ->); split; try reflexivity; [apply (Permutation_in _ (Hord 1 _ _)), A|apply (Permutation_in _ (Permutation_sym (Hord 1 _ _))), A]. }
  destruct l as [|x r]; [intros t Ht En; apply (in_nil (a := t)); apply H; auto|]. split; [discriminate|exact H].
Qed.
Print Assumptions C97_by_name.
Definition pb_calls : list bcall := [BPlace (str "p"); BTransition (str "a") false; BTransition (str "b") true; BToTransition 0 1; BToPlace 2 0; BToTransition 0 2; BToTransition 0 1].
Example C97_case : only_built pb_calls /\ match bcalls (bnet_empty 0) pb_calls with
  | Ok net => bind (get_outgoing_transitions net 0) (fun l => Ok (map tr_name l)) = Ok [str "a"; str "b"; str "a"] /\ bind (get_incoming_transitions net 0) (fun l => Ok (map tr_name l)) = Ok [str "b"] /\
      option_map (fun at_ => tr_name (snd at_)) (find_arc as_it_is net 6) = Some (str "a") /\ find_arc as_it_is net 2 = None /\ get_incoming_transitions net 9 = rpanic /\
      option_map (@length _) (find_all_transitions_by_name as_it_is net (str "b")) = Some 1 /\ find_all_transitions_by_name as_it_is net (str "p") = None
  | Err _ => False end.
Proof. split; [intros t; cbn; intuition discriminate|]. vm_compute. repeat split. Qed.
(** Not true: that the transitions of a place can be asked for after one of them was deleted. *)
Theorem C97_delete_refuted : exists l net, bcalls (bnet_empty 0) (l ++ [BDelete 1%N]) = Ok net /\ dget N.eq_dec (bn_places net) 0%N <> None /\ dget N.eq_dec (bn_trans net) 2%N <> None /\ In 2%N (after_place 0 l) /\ get_outgoing_transitions net 0 = rpanic.
Proof. exists pb_calls. eexists. split; [reflexivity|]. vm_compute. repeat split; try discriminate. auto. Qed.
Print Assumptions C97_delete_refuted.
(** Not true: that a place of an arc is in the net. *)
Theorem C97_place_refuted : exists l net, only_built l /\ bcalls (bnet_empty 0) l = Ok net /\ exists t, dget N.eq_dec (bn_trans net) 0%N = Some t /\ exists a, In a (tr_in t) /\ dget N.eq_dec (bn_places net) (arc_place a) = None.
Proof. exists [BTransition (str "a") false; BToTransition 7 0]. eexists. split; [intros t; cbn; intuition discriminate|]. split; [reflexivity|]. eexists. split; [reflexivity|]. exists (mkArc 1 7). split; [left; reflexivity|reflexivity]. Qed.
Print Assumptions C97_place_refuted.
