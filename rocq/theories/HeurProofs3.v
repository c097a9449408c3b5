(** Proofs about the heuristic miner: how the net is built. *)
From Coq Require Import Permutation Sorted QArith.
From Verif Require Import Py PyFacts InfoModel InfoSpec InfoProofs HashModel EqProofs ReplayModel ReplaySpec ReplayProofs HMutProofs RInfoModel RInfoSpec RInfoProofs AlphaModel AlphaSpec AlphaProofs AlphaProofs2 AlphaProofs3 AlphaProofs4 HeurModel HeurSpec HeurProofs1.
Open Scope nat_scope.

(** ** Transitions without the ids of their arcs *)
Notation tv := (N * pystr * bool * list N * list N)%type.
Definition view (t : ptrans) : tv := (tr_id t, tr_name t, tr_silent t, ins t, outs t).
Definition tv_id (v : tv) : N := fst (fst (fst (fst v))).
Definition vch (out : bool) (place i : N) (v : tv) : tv :=
  if N.eqb (tv_id v) i then (if out then (fst (fst v), snd (fst v), snd v ++ [place]) else (fst (fst v), snd (fst v) ++ [place], snd v)) else v.
Definition fresh (net : pnet) (next : N) : Prop := NoDup (all_ids net) /\ forall i, In i (all_ids net) -> (i < next)%N.
Lemma changed_view out place arc i t : view (changed out place arc i t) = vch out place i (view t).
Proof.
  unfold changed, vch, view, tv_id. cbn [fst snd]. destruct (N.eqb (tr_id t) i); [|reflexivity]. destruct out; unfold ins, outs; cbn [add_out add_in tr_id tr_name tr_silent tr_in tr_out]; rewrite map_app; reflexivity.
Qed.
Lemma views_ids l : map tv_id (map view l) = map tr_id l.
Proof. rewrite map_map. reflexivity. Qed.
Lemma conn_fresh out net next i place : fresh net next -> In i (map tr_id (n_trans net)) ->
  exists net', conn out (net, next) i place = Ok (net', N.succ next) /\ fresh net' (N.succ next) /\ n_places net' = n_places net /\ n_initial net' = n_initial net /\ n_final net' = n_final net /\
    map view (n_trans net') = map (vch out place i) (map view (n_trans net)).
Proof.
  intros [W1 W2] NDin. exists (mkNet (n_places net) (map (changed out place next i) (n_trans net)) (n_initial net) (n_final net)).
  assert (NDi : NoDup (map tr_id (n_trans net))) by (eapply NoDup_app_l; exact W1).
  assert (Eids : map tr_id (map (changed out place next i) (n_trans net)) = map tr_id (n_trans net)) by (rewrite map_map; apply map_ext; intros u; apply changed_id).
  assert (Pm : Permutation (all_ids (mkNet (n_places net) (map (changed out place next i) (n_trans net)) (n_initial net) (n_final net))) (next :: all_ids net)).
  { unfold all_ids. cbn [n_trans n_places]. rewrite Eids. eapply perm_trans; [apply Permutation_app_head, Permutation_app_head, changed_arcs; assumption|].
    rewrite app_assoc. eapply perm_trans; [symmetry; apply Permutation_middle|]. rewrite <- app_assoc. reflexivity. }
  split; [|split; [|split; [|split; [|split]]]]; try reflexivity.
  - destruct (net_transition_In net i NDin) as (u & Eu). unfold conn, connect_transition_to_place, connect_place_to_transition, update_transition. cbn [fst snd]. destruct out; rewrite Eu; reflexivity.
  - split.
    + apply (Permutation_NoDup (Permutation_sym Pm)). constructor; [|exact W1]. intros X. apply W2 in X. lia.
    + intros j Hj. apply (Permutation_in _ Pm) in Hj. destruct Hj as [<-|Hj]; [lia|]. apply W2 in Hj. lia.
  - cbn [n_trans]. rewrite !map_map. apply map_ext. intros t. apply changed_view.
Qed.
Lemma add_trans_fresh silent net next name : fresh net next ->
  let net' := mkNet (n_places net) (n_trans net ++ [mkTrans next name silent [] []]) (n_initial net) (n_final net) in
  fresh net' (N.succ next) /\ map view (n_trans net') = map view (n_trans net) ++ [(next, name, silent, [], [])].
Proof.
  intros [W1 W2]. cbn zeta. set (n1 := mkNet _ _ _ _).
  assert (Pm : Permutation (all_ids n1) (next :: all_ids net)).
  { unfold all_ids, n1. cbn [n_trans n_places]. rewrite map_app, flat_map_app. cbn [map tr_id flat_map arcs_of tr_in tr_out app]. rewrite app_nil_r, <- app_assoc. cbn [app]. symmetry. apply Permutation_middle. }
  split; [split|unfold n1; cbn [n_trans]; rewrite map_app; reflexivity].
  - apply (Permutation_NoDup (Permutation_sym Pm)). constructor; [|exact W1]. intros H. apply W2 in H. lia.
  - intros j Hj. apply (Permutation_in _ Pm) in Hj. destruct Hj as [<-|Hj]; [lia|]. apply W2 in Hj. lia.
Qed.
Lemma add_place_fresh net next name : fresh net next ->
  exists net', add_place (net, next) name = (net', N.succ next, next) /\ fresh net' (N.succ next) /\
    n_places net' = n_places net ++ [(next, name)] /\ n_initial net' = n_initial net /\ n_final net' = n_final net /\ n_trans net' = n_trans net.
Proof.
  intros [W1 W2].
  assert (Hf : ~ In next (all_ids net)) by (intros H; apply W2 in H; lia).
  assert (E : dset N.eq_dec (n_places net) next name = n_places net ++ [(next, name)]) by (apply dsetN_fresh; intros H; apply Hf; unfold all_ids; rewrite !in_app_iff; auto).
  eexists. split; [reflexivity|].
  assert (Pm : Permutation (all_ids (mkNet (dset N.eq_dec (n_places net) next name) (n_trans net) (n_initial net) (n_final net))) (next :: all_ids net)).
  { unfold all_ids. cbn [n_trans n_places]. rewrite E. unfold dkeys. rewrite map_app. cbn [map fst]. eapply perm_trans; [|symmetry; apply Permutation_middle]. apply Permutation_app_head.
    rewrite <- app_assoc. cbn [app]. symmetry. apply Permutation_middle. }
  split; [split|cbn [n_places n_initial n_final n_trans]; auto].
  - apply (Permutation_NoDup (Permutation_sym Pm)). constructor; assumption.
  - intros j Hj. apply (Permutation_in _ Pm) in Hj. destruct Hj as [<-|Hj]; [lia|]. apply W2 in Hj. lia.
Qed.
Lemma vch_other out place i l : ~ In i (map tv_id l) -> map (vch out place i) l = l.
Proof.
  induction l as [|v l IH]; cbn [map]; intros H; [reflexivity|]. rewrite IH by (intros X; apply H; right; exact X). f_equal.
  unfold vch. destruct (N.eqb (tv_id v) i) eqn:E; [|reflexivity]. apply N.eqb_eq in E. exfalso. apply H. left. exact E.
Qed.

(** ** What has been built *)
Definition iblock : Type := hblock * list pystr.
Definition block_ins (c : pystr) (b : iblock) : list N :=
  flat_map (fun g => map snd (filter (fun cp => str_eqb (fst cp) c) (hg_places g))) (hb_groups (fst b)) ++ map (fun _ => hb_post (fst b)) (filter (str_eqb c) (snd b)).
Definition block_outs (c : pystr) (b : iblock) : list N := if str_eqb (hb_class (fst b)) c then [hb_post (fst b)] else [].
Definition loud_view (blocks : list iblock) (ci : pystr * N) : tv := (snd ci, fst ci, false, flat_map (block_ins (fst ci)) blocks, flat_map (block_outs (fst ci)) blocks).
Record built (ids : dict pystr N) (net : pnet) (next : N) (blocks : list iblock) : Prop := {
  bu_fresh : fresh net next;
  bu_ids : NoDup (dkeys ids);
  bu_places : n_places net = flat_map (fun b => hb_places (fst b)) blocks;
  bu_initial : n_initial net = None;
  bu_final : n_final net = None;
  bu_views : map view (n_trans net) = map (loud_view blocks) ids ++ flat_map (fun b => hb_silent (fst b)) blocks }.
Lemma built_trans_ids ids net next blocks : built ids net next blocks -> map tr_id (n_trans net) = map snd ids ++ map tv_id (flat_map (fun b => hb_silent (fst b)) blocks).
Proof. intros B. rewrite <- views_ids, (bu_views _ _ _ _ B), map_app, map_map. reflexivity. Qed.
Lemma built_ids_once ids net next blocks : built ids net next blocks -> NoDup (map snd ids ++ map tv_id (flat_map (fun b => hb_silent (fst b)) blocks)).
Proof. intros B. rewrite <- (built_trans_ids _ _ _ _ B). eapply NoDup_app_l. apply (bu_fresh _ _ _ _ B). Qed.
Lemma dget_pair {V} (d : dict pystr V) c i : dget str_eq_dec d c = Some i -> In (c, i) d.
Proof. induction d as [|[k v] d IH]; cbn [dget]; [discriminate|]. destruct (str_eq_dec c k) as [->|]; [intros E; injection E as ->; left; reflexivity|]. intros H. right. apply IH, H. Qed.
Lemma NoDup_app_not {A} (l l' : list A) x : NoDup (l ++ l') -> In x l -> ~ In x l'.
Proof. induction l as [|y l IH]; cbn [app]; intros H H1; [destruct H1|]. inversion H as [|? ? Hn ND]; subst. destruct H1 as [->|H1]; [intros X; apply Hn, in_app_iff; auto|apply IH; assumption]. Qed.
Lemma once_inj {A B} (f : A -> B) l x y : NoDup (map f l) -> In x l -> In y l -> f x = f y -> x = y.
Proof.
  induction l as [|z l IH]; intros ND Hx Hy E; [destruct Hx|]. cbn [map] in ND. inversion ND as [|? ? Hn ND']; subst.
  destruct Hx as [->|Hx], Hy as [->|Hy]; [reflexivity| | |auto]; exfalso; apply Hn; [rewrite E|rewrite <- E]; apply in_map; assumption.
Qed.
(** Changing the transition of one class. *)
Lemma vch_louds out place ids blocks blocks' c i : NoDup (dkeys ids) -> NoDup (map snd ids) -> In (c, i) ids ->
  (forall k, loud_view blocks' (c, k) = vch out place k (loud_view blocks (c, k))) ->
  (forall d k, d <> c -> loud_view blocks' (d, k) = loud_view blocks (d, k)) ->
  map (vch out place i) (map (loud_view blocks) ids) = map (loud_view blocks') ids.
Proof.
  intros ND1 ND2 Hc H1 H2. rewrite map_map. apply map_ext_in. intros [d k] Hd. destruct (str_eq_dec d c) as [->|Hne].
  - assert (X : (c, k) = (c, i)) by (eapply once_inj; [exact ND1|exact Hd|exact Hc|reflexivity]). injection X as ->. symmetry. apply H1.
  - rewrite H2 by exact Hne. unfold vch, tv_id, loud_view. cbn [fst snd]. destruct (N.eqb k i) eqn:E; [|reflexivity]. apply N.eqb_eq in E. subst k. exfalso. apply Hne.
    assert (X : (d, i) = (c, i)) by (eapply once_inj; [exact ND2|exact Hd|exact Hc|reflexivity]). congruence.
Qed.
Lemma str_eqb_no a b : a <> b -> str_eqb a b = false.
Proof. intros H. destruct (str_eqb a b) eqn:E; [apply str_eqb_eq in E; contradiction|reflexivity]. Qed.
(** A block is started. *)
Lemma start_block ids net next blocks c i : built ids net next blocks -> dget str_eq_dec ids c = Some i ->
  exists net' , add_place (net, next) (str "post_" ++ c) = (net', N.succ next, next) /\
  exists net'' next'', connect_transition_to_place (net', N.succ next) i next = Ok (net'', next'') /\ built ids net'' next'' (blocks ++ [(mkHBlock c next [], [])]).
Proof.
  intros B Hi. pose proof (built_ids_once _ _ _ _ B) as ND. pose proof (built_trans_ids _ _ _ _ B) as TI. destruct B as [B1 B2 B3 B4 B5 B6].
  destruct (add_place_fresh net next (str "post_" ++ c) B1) as (n1 & E1 & F1 & P1 & I1 & J1 & T1). exists n1. split; [exact E1|]. apply dget_pair in Hi.
  assert (Hin : In i (map snd ids)) by (apply in_map_iff; exists (c, i); auto).
  destruct (conn_fresh true n1 (N.succ next) i next F1) as (n2 & E2 & F2 & P2 & I2 & J2 & T2); [rewrite T1, TI; apply in_app_iff; auto|]. cbn [conn] in E2. exists n2, (N.succ (N.succ next)). split; [exact E2|].
  split; [exact F2|exact B2|..]; try congruence.
  - rewrite P2, P1, B3, flat_map_app. f_equal.
  - rewrite T2, T1, B6, map_app. f_equal.
    + apply vch_louds with (c := c); [exact B2|eapply NoDup_app_l; exact ND|exact Hi|..].
      * intros k. unfold loud_view, vch, tv_id. cbn [fst snd]. rewrite N.eqb_refl, !flat_map_app. cbn [flat_map]. unfold block_ins at 2, block_outs at 2. cbn [fst snd hb_groups hb_class hb_post flat_map filter map]. rewrite str_eqb_refl, !app_nil_r. reflexivity.
      * intros d k Hd. unfold loud_view. cbn [fst snd]. rewrite !flat_map_app. cbn [flat_map]. unfold block_ins at 2, block_outs at 2. cbn [fst snd hb_groups hb_class hb_post flat_map filter map]. rewrite str_eqb_no by congruence. rewrite !app_nil_r. reflexivity.
    + rewrite flat_map_app. cbn [flat_map hb_silent fst hb_groups map]. rewrite !app_nil_r. apply vch_other. eapply NoDup_app_not; eauto.
Qed.
(** A group is started. *)
Lemma start_group ids net next blocks c post groups : built ids net next (blocks ++ [(mkHBlock c post groups, [])]) ->
  exists net' next', connect_place_to_transition (fst (add_silent (net, next) (str "silent_start_" ++ c))) post next = Ok (net', next') /\
    built ids net' next' (blocks ++ [(mkHBlock c post (groups ++ [mkHGroup next []]), [])]).
Proof.
  intros B. pose proof (built_ids_once _ _ _ _ B) as ND. pose proof (built_trans_ids _ _ _ _ B) as TI. destruct B as [B1 B2 B3 B4 B5 B6]. cbn [add_silent fst].
  destruct (add_trans_fresh true net next (str "silent_start_" ++ c) B1) as (F1 & T1). cbn zeta in F1, T1. set (n1 := mkNet _ _ _ _) in *.
  destruct (conn_fresh false n1 (N.succ next) next post F1) as (n2 & E2 & F2 & P2 & I2 & J2 & T2); [unfold n1; cbn [n_trans]; rewrite map_app; apply in_app_iff; right; left; reflexivity|]. cbn [conn] in E2. exists n2, (N.succ (N.succ next)). split; [exact E2|].
  assert (Hn : ~ In next (map tr_id (n_trans net))). { intros H. destruct B1 as [_ B1]. assert (In next (all_ids net)) by (unfold all_ids; apply in_app_iff; auto). apply B1 in H0. lia. }
  split; [exact F2|exact B2|..]; try (unfold n1 in *; cbn [n_initial n_final] in *; congruence).
  - rewrite P2. unfold n1. cbn [n_places]. rewrite B3, !flat_map_app. f_equal. cbn [flat_map fst]. unfold hb_places. cbn [hb_class hb_post hb_groups]. rewrite flat_map_app. cbn [flat_map hg_places map]. rewrite !app_nil_r. reflexivity.
  - rewrite T2, T1, map_app, vch_other, B6.
    + cbn [map]. unfold vch at 1, tv_id. cbn [fst snd app]. rewrite N.eqb_refl, !flat_map_app. cbn [flat_map]. rewrite !app_nil_r. rewrite <- !app_assoc. f_equal.
      * apply map_ext. intros [d k]. unfold loud_view. cbn [fst snd]. rewrite !flat_map_app. cbn [flat_map]. rewrite !app_nil_r. unfold block_ins at 2 4, block_outs at 2 4. cbn [fst snd hb_groups hb_class hb_post]. rewrite flat_map_app. cbn [flat_map hg_places filter map]. rewrite !app_nil_r. reflexivity.
      * f_equal. unfold hb_silent. cbn [fst hb_groups hb_class hb_post]. rewrite map_app. reflexivity.
    + rewrite views_ids. exact Hn.
Qed.
(** A name is added to a group. *)
Lemma member_proof ids net next blocks c post groups g pairs el i : built ids net next (blocks ++ [(mkHBlock c post (groups ++ [mkHGroup g pairs]), [])]) -> dget str_eq_dec ids el = Some i ->
  exists net' next', group_member ids g (net, next) el = Ok (net', next') /\ built ids net' next' (blocks ++ [(mkHBlock c post (groups ++ [mkHGroup g (pairs ++ [(el, next)])]), [])]).
Proof.
  intros B Hi. pose proof (built_ids_once _ _ _ _ B) as ND. pose proof (built_trans_ids _ _ _ _ B) as TI. destruct B as [B1 B2 B3 B4 B5 B6]. unfold group_member.
  destruct (add_place_fresh net next (str "pre_" ++ el) B1) as (n1 & E1 & F1 & P1 & I1 & J1 & T1). rewrite E1.
  assert (Es : flat_map (fun b => hb_silent (fst b)) (blocks ++ [(mkHBlock c post (groups ++ [mkHGroup g pairs]), [])]) =
    (flat_map (fun b => hb_silent (fst b)) blocks ++ hb_silent (mkHBlock c post groups)) ++ [(g, str "silent_start_" ++ c, true, [post], map snd pairs)]).
  { rewrite flat_map_app. cbn [flat_map fst]. rewrite app_nil_r, <- app_assoc. f_equal. unfold hb_silent. cbn [hb_groups hb_class hb_post]. rewrite map_app. reflexivity. }
  rewrite Es in ND, TI, B6. set (S0 := flat_map (fun b => hb_silent (fst b)) blocks ++ hb_silent (mkHBlock c post groups)) in *.
  assert (ES0 : S0 = flat_map (fun b => hb_silent (fst b)) blocks ++ hb_silent (mkHBlock c post groups)) by reflexivity. clearbody S0.
  destruct (conn_fresh true n1 (N.succ next) g next F1) as (n2 & E2 & F2 & P2 & I2 & J2 & T2); [rewrite T1, TI, map_app; apply in_app_iff; right; apply in_app_iff; right; left; reflexivity|]. cbn [conn] in E2. rewrite E2. cbn [bind]. unfold class_id. rewrite Hi. cbn [bind].
  apply dget_pair in Hi. assert (Hin : In i (map snd ids)) by (apply in_map_iff; exists (el, i); auto).
  assert (Ti2 : map tr_id (n_trans n2) = map tr_id (n_trans net)).
  { rewrite <- !views_ids, T2, T1, map_map. apply map_ext. intros v. unfold vch. destruct (N.eqb (tv_id v) g); reflexivity. }
  destruct (conn_fresh false n2 (N.succ (N.succ next)) i next F2) as (n3 & E3 & F3 & P3 & I3 & J3 & T3); [rewrite Ti2, TI; apply in_app_iff; auto|]. cbn [conn] in E3. exists n3, (N.succ (N.succ (N.succ next))). split; [exact E3|].
  rewrite map_app in ND. cbn [map tv_id fst] in ND. rewrite app_assoc in ND.
  assert (Hg : ~ In g (map snd ids ++ map tv_id S0)).
  { intros H. eapply NoDup_app_not; [exact ND|exact H|left; reflexivity]. }
  rewrite in_app_iff in Hg.
  split; [exact F3|exact B2|..]; try congruence.
  - rewrite P3, P2, P1, B3, !flat_map_app. rewrite <- app_assoc. f_equal. cbn [flat_map fst]. rewrite !app_nil_r. unfold hb_places. cbn [hb_class hb_post hb_groups]. rewrite !flat_map_app. cbn [flat_map hg_places]. rewrite !app_nil_r, map_app. cbn [map fst snd app]. rewrite <- app_assoc. reflexivity.
  - rewrite T3, T2, T1, B6, !map_app. cbn [map].
    rewrite (vch_other true next g (map (loud_view _) ids)) by (rewrite map_map; cbn [loud_view tv_id fst]; auto).
    rewrite (vch_other true next g S0) by auto. rewrite (vch_other false next i S0) by (intros H; eapply NoDup_app_not; [eapply NoDup_app_l; exact ND|exact Hin|exact H]).
    assert (Hgi : N.eqb g i = false). { apply N.eqb_neq. intros ->. apply Hg. auto. }
    unfold vch at 2 3. cbn [tv_id fst snd]. rewrite N.eqb_refl. cbn [tv_id fst snd]. rewrite Hgi. f_equal.
    + apply vch_louds with (c := el); [exact B2|apply NoDup_app_l in ND; eapply NoDup_app_l; exact ND|exact Hi|..].
      * intros k. unfold loud_view, vch, tv_id. cbn [fst snd]. rewrite N.eqb_refl, !flat_map_app. cbn [flat_map]. rewrite !app_nil_r. unfold block_ins at 2 4, block_outs at 2 4. cbn [fst snd hb_groups hb_class hb_post filter map]. rewrite !flat_map_app. cbn [flat_map hg_places]. rewrite !app_nil_r. rewrite filter_app, map_app. cbn [filter fst]. rewrite str_eqb_refl. cbn [map snd]. rewrite !app_assoc. reflexivity.
      * intros d k Hd. unfold loud_view. cbn [fst snd]. rewrite !flat_map_app. cbn [flat_map]. rewrite !app_nil_r. unfold block_ins at 2 4, block_outs at 2 4. cbn [fst snd hb_groups hb_class hb_post filter map]. rewrite !flat_map_app. cbn [flat_map hg_places]. rewrite !app_nil_r. rewrite filter_app, map_app. cbn [filter fst]. rewrite str_eqb_no by congruence. cbn [map]. rewrite !app_nil_r. reflexivity.
    + rewrite flat_map_app. cbn [flat_map fst]. rewrite app_nil_r. rewrite ES0. rewrite <- !app_assoc. f_equal. unfold hb_silent. cbn [hb_groups hb_class hb_post]. rewrite map_app. cbn [map hg_id hg_places]. rewrite map_app. reflexivity.
Qed.
(** A name which is in no group. *)
Lemma direct_proof ids net next blocks b direct el i : built ids net next (blocks ++ [(b, direct)]) -> dget str_eq_dec ids el = Some i ->
  exists net' next', connect_place_to_transition (net, next) (hb_post b) i = Ok (net', next') /\ built ids net' next' (blocks ++ [(b, direct ++ [el])]).
Proof.
  intros B Hi. pose proof (built_ids_once _ _ _ _ B) as ND. pose proof (built_trans_ids _ _ _ _ B) as TI. destruct B as [B1 B2 B3 B4 B5 B6].
  apply dget_pair in Hi. assert (Hin : In i (map snd ids)) by (apply in_map_iff; exists (el, i); auto).
  destruct (conn_fresh false net next i (hb_post b) B1) as (n2 & E2 & F2 & P2 & I2 & J2 & T2); [rewrite TI; apply in_app_iff; auto|]. cbn [conn] in E2. exists n2, (N.succ next). split; [exact E2|].
  split; [exact F2|exact B2|..]; try congruence.
  - rewrite P2, B3, !flat_map_app. reflexivity.
  - rewrite T2, B6, map_app. f_equal.
    + apply vch_louds with (c := el); [exact B2|eapply NoDup_app_l; exact ND|exact Hi|..].
      * intros k. unfold loud_view, vch, tv_id. cbn [fst snd]. rewrite N.eqb_refl, !flat_map_app. cbn [flat_map]. rewrite !app_nil_r. unfold block_ins at 2 4. cbn [fst snd]. rewrite filter_app, map_app. cbn [filter]. rewrite str_eqb_refl. cbn [map]. rewrite !app_assoc. reflexivity.
      * intros d k Hd. unfold loud_view. cbn [fst snd]. rewrite !flat_map_app. cbn [flat_map]. rewrite !app_nil_r. unfold block_ins at 2 4. cbn [fst snd]. rewrite filter_app, map_app. cbn [filter]. rewrite str_eqb_no by exact Hd. cbn [map]. rewrite !app_nil_r. reflexivity.
    + rewrite vch_other; [rewrite !flat_map_app; reflexivity|]. eapply NoDup_app_not; eauto.
Qed.

(** ** Loops *)
Lemma members_proof ids g blocks c post groups l : (forall x, In x l -> dget str_eq_dec ids x <> None) -> forall net next pairs,
  built ids net next (blocks ++ [(mkHBlock c post (groups ++ [mkHGroup g pairs]), [])]) ->
  exists net' next' more, loopM (group_member ids g) l (net, next) = Ok (net', next') /\ map fst more = l /\
    built ids net' next' (blocks ++ [(mkHBlock c post (groups ++ [mkHGroup g (pairs ++ more)]), [])]).
Proof.
  intros K. induction l as [|x l IH]; intros net next pairs B.
  - exists net, next, []. split; [reflexivity|]. split; [reflexivity|]. rewrite app_nil_r. exact B.
  - rewrite loopM_cons. destruct (dget str_eq_dec ids x) as [i|] eqn:Ei; [|exfalso; apply (K x (or_introl eq_refl) Ei)].
    destruct (member_proof _ _ _ _ _ _ _ _ _ x i B Ei) as (n1 & x1 & -> & B1). cbn [bind].
    destruct (IH (fun y Hy => K y (or_intror Hy)) n1 x1 _ B1) as (n2 & x2 & more & E & Em & B2). exists n2, x2, ((x, next) :: more). split; [exact E|]. split; [cbn [map fst]; congruence|]. rewrite <- app_assoc in B2. exact B2.
Qed.
Lemma groups_loop ids blocks c post l : (forall G x, In G l -> In x G -> dget str_eq_dec ids x <> None) -> forall net next groups,
  built ids net next (blocks ++ [(mkHBlock c post groups, [])]) ->
  exists net' next' more, loopM (add_group ids c post) l (net, next) = Ok (net', next') /\ map hg_names more = l /\
    built ids net' next' (blocks ++ [(mkHBlock c post (groups ++ more), [])]).
Proof.
  intros K. induction l as [|G l IH]; intros net next groups B.
  - exists net, next, []. split; [reflexivity|]. split; [reflexivity|]. rewrite app_nil_r. exact B.
  - rewrite loopM_cons. unfold add_group at 1. destruct (start_group _ _ _ _ _ _ _ B) as (n1 & x1 & E1 & B1). cbn [add_silent fst] in E1 |- *. rewrite E1. cbn [bind].
    destruct (members_proof ids next blocks c post groups G (fun x Hx => K G x (or_introl eq_refl) Hx) n1 x1 [] B1) as (n2 & x2 & more & E2 & Em & B2). rewrite E2. cbn [bind].
    destruct (IH (fun H x HH => K H x (or_intror HH)) n2 x2 _ B2) as (n3 & x3 & more' & E3 & Em' & B3). exists n3, x3, (mkHGroup next more :: more'). split; [exact E3|]. split; [cbn [map]; unfold hg_names at 1; cbn [hg_places]; congruence|]. rewrite <- app_assoc in B3. exact B3.
Qed.
Lemma directs_loop ids blocks b l : (forall x, In x l -> dget str_eq_dec ids x <> None) -> forall net next direct,
  built ids net next (blocks ++ [(b, direct)]) ->
  exists net' next', loopM (fun nn follower => bind (class_id ids follower) (fun t => connect_place_to_transition nn (hb_post b) t)) l (net, next) = Ok (net', next') /\
    built ids net' next' (blocks ++ [(b, direct ++ l)]).
Proof.
  intros K. induction l as [|x l IH]; intros net next direct B.
  - exists net, next. split; [reflexivity|]. rewrite app_nil_r. exact B.
  - rewrite loopM_cons. unfold class_id at 1. destruct (dget str_eq_dec ids x) as [i|] eqn:Ei; [|exfalso; apply (K x (or_introl eq_refl) Ei)]. cbn [bind].
    destruct (direct_proof _ _ _ _ _ _ x i B Ei) as (n1 & x1 & -> & B1). cbn [bind].
    destruct (IH (fun y Hy => K y (or_intror Hy)) n1 x1 _ B1) as (n2 & x2 & E & B2). exists n2, x2. split; [exact E|]. rewrite <- app_assoc in B2. exact B2.
Qed.
Lemma dset_fresh {V} (d : dict pystr V) k v : ~ In k (dkeys d) -> dset str_eq_dec d k v = d ++ [(k, v)].
Proof.
  induction d as [|[k' v'] d IH]; intros H; [reflexivity|]. cbn [dset]. destruct (str_eq_dec k k') as [->|Hk]; [exfalso; apply H; left; reflexivity|].
  cbn [app]. f_equal. apply IH. intros X. apply H. right. exact X.
Qed.
Lemma classes_loop classes : forall ids net next, built ids net next [] -> NoDup (dkeys ids ++ classes) ->
  exists net' next' ids', fold_left (fun '(nn, ids) class => let '(nn, id) := add_transition nn class in (nn, dset str_eq_dec ids class id)) classes ((net, next), ids) = ((net', next'), ids') /\
    dkeys ids' = dkeys ids ++ classes /\ built ids' net' next' [].
Proof.
  induction classes as [|c classes IH]; intros ids net next B ND.
  - exists net, next, ids. rewrite app_nil_r. split; [reflexivity|]. auto.
  - cbn [fold_left add_transition]. destruct B as [B1 B2 B3 B4 B5 B6]. destruct (add_trans_fresh false net next c B1) as (F1 & T1). cbn zeta in F1, T1. set (n1 := mkNet _ _ _ _) in *.
    assert (Hc : ~ In c (dkeys ids)) by (intros H; eapply NoDup_app_not; [exact ND|exact H|left; reflexivity]).
    assert (Ek : dkeys (dset str_eq_dec ids c next) = dkeys ids ++ [c]) by (rewrite dset_fresh by exact Hc; unfold dkeys; rewrite map_app; reflexivity).
    destruct (IH (dset str_eq_dec ids c next) n1 (N.succ next)) as (n2 & x2 & ids2 & E & Ei & B').
    + split; try assumption.
      * rewrite Ek. replace (dkeys ids ++ c :: classes) with ((dkeys ids ++ [c]) ++ classes) in ND by (rewrite <- app_assoc; reflexivity). eapply NoDup_app_l. exact ND.
      * rewrite T1, B6, dset_fresh by exact Hc. rewrite map_app. cbn [flat_map map]. rewrite !app_nil_r. reflexivity.
    + rewrite Ek, <- app_assoc. exact ND.
    + exists n2, x2, ids2. split; [exact E|]. split; [|exact B']. rewrite Ei, Ek, <- app_assoc. reflexivity.
Qed.
