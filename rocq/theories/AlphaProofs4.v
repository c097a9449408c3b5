(** Proofs about the alpha algorithm: the net made from the sets. *)
From Coq Require Import Permutation Sorted.
From Verif Require Import Py PyFacts InfoModel InfoSpec InfoProofs HashModel EqProofs ReplayModel ReplaySpec ReplayProofs HMutProofs RInfoModel RInfoSpec RInfoProofs AlphaModel AlphaSpec AlphaProofs AlphaProofs2 AlphaProofs3.

Lemma NoDup_app_l {A} (l l' : list A) : NoDup (l ++ l') -> NoDup l.
Proof. induction l as [|x l IH]; cbn [app]; intros H; [constructor|]. inversion H; subst. constructor; [rewrite in_app_iff in *; tauto|auto]. Qed.
Definition conn (out : bool) (nn : pnet * N) (t place : N) : result (pnet * N) :=
  if out then connect_transition_to_place nn t place else connect_place_to_transition nn place t.
Definition pls (out : bool) (t : ptrans) : list N := map arc_place (if out then tr_out t else tr_in t).
Definition grow (out : bool) (place : N) (l : list pystr) (t t' : ptrans) : Prop :=
  tr_id t' = tr_id t /\ tr_name t' = tr_name t /\ tr_silent t' = tr_silent t /\ pls (negb out) t' = pls (negb out) t /\
  pls out t' = pls out t ++ (if str_mem (tr_name t) l then [place] else []).
Record wired (net : pnet) (next : N) (ids : dict pystr N) : Prop := {
  w_ids : NoDup (all_ids net);
  w_fresh : forall i, In i (all_ids net) -> (i < next)%N;
  w_class : forall c i, dget str_eq_dec ids c = Some i <-> exists t, In t (n_trans net) /\ tr_name t = c /\ tr_id t = i;
  w_once : NoDup (map tr_name (n_trans net)) }.

Definition changed (out : bool) (place arc i : N) (t : ptrans) : ptrans :=
  if N.eqb (tr_id t) i then (if out then add_out place arc t else add_in place arc t) else t.
Lemma changed_arcs_other out place arc i l : ~ In i (map tr_id l) -> map (changed out place arc i) l = l.
Proof.
  induction l as [|t l IH]; cbn [map]; intros H; [reflexivity|]. rewrite IH by (intros X; apply H; right; exact X). f_equal.
  unfold changed. destruct (N.eqb (tr_id t) i) eqn:E; [|reflexivity]. apply N.eqb_eq in E. exfalso. apply H. left. exact E.
Qed.
Lemma changed_arcs out place arc i l : NoDup (map tr_id l) -> In i (map tr_id l) ->
  Permutation (flat_map arcs_of (map (changed out place arc i) l)) (arc :: flat_map arcs_of l).
Proof.
  induction l as [|t l IH]; cbn [map flat_map]; intros ND H; [destruct H|]. inversion ND as [|x y Hn ND']; subst. destruct (N.eq_dec (tr_id t) i) as [E|E].
  - rewrite changed_arcs_other by (rewrite <- E; exact Hn). unfold changed. apply N.eqb_eq in E. rewrite E. rewrite app_comm_cons. apply Permutation_app_tail.
    destruct out; unfold arcs_of; cbn [add_in add_out tr_in tr_out]; rewrite map_app; cbn [map arc_id].
    + rewrite app_assoc. symmetry. apply Permutation_cons_append.
    + rewrite <- app_assoc. symmetry. apply Permutation_middle.
  - unfold changed at 1. apply N.eqb_neq in E. rewrite E. apply N.eqb_neq in E. destruct H as [H|H]; [contradiction|].
    eapply perm_trans; [apply Permutation_app_head, IH; assumption|]. symmetry. apply Permutation_middle.
Qed.
Lemma changed_id out place arc i t : tr_id (changed out place arc i t) = tr_id t /\ tr_name (changed out place arc i t) = tr_name t.
Proof. unfold changed. destruct (N.eqb (tr_id t) i), out; split; reflexivity. Qed.

Lemma connect_proof out net next ids c i place : wired net next ids -> dget str_eq_dec ids c = Some i ->
  exists net', conn out (net, next) i place = Ok (net', N.succ next) /\ wired net' (N.succ next) ids /\
    n_places net' = n_places net /\ n_initial net' = n_initial net /\ n_final net' = n_final net /\
    Forall2 (grow out place [c]) (n_trans net) (n_trans net').
Proof.
  intros [W1 W2 W3 W4] H. exists (mkNet (n_places net) (map (changed out place next i) (n_trans net)) (n_initial net) (n_final net)).
  pose proof (proj1 (W3 c i) H) as (t & Ht & Hc & Hi).
  assert (NDi : NoDup (map tr_id (n_trans net))) by (eapply NoDup_app_l; exact W1).
  assert (NDin : In i (map tr_id (n_trans net))) by (rewrite <- Hi; apply in_map; exact Ht).
  assert (Eids : map tr_id (map (changed out place next i) (n_trans net)) = map tr_id (n_trans net)) by (rewrite map_map; apply map_ext; intros u; apply changed_id).
  assert (Enames : map tr_name (map (changed out place next i) (n_trans net)) = map tr_name (n_trans net)) by (rewrite map_map; apply map_ext; intros u; apply changed_id).
  assert (Pm : Permutation (all_ids (mkNet (n_places net) (map (changed out place next i) (n_trans net)) (n_initial net) (n_final net))) (next :: all_ids net)).
  { unfold all_ids. cbn [n_trans n_places]. rewrite Eids. eapply perm_trans; [apply Permutation_app_head, Permutation_app_head, changed_arcs; assumption|].
    rewrite app_assoc. eapply perm_trans; [symmetry; apply Permutation_middle|]. rewrite <- app_assoc. reflexivity. }
  split; [|split; [|split; [|split; [|split]]]]; try reflexivity.
  - destruct (net_transition_In net i NDin) as (u & Eu). unfold conn, connect_transition_to_place, connect_place_to_transition, update_transition. cbn [fst snd]. destruct out; rewrite Eu; reflexivity.
  - split; cbn [n_trans].
    + apply (Permutation_NoDup (Permutation_sym Pm)). constructor; [|exact W1]. intros X. apply W2 in X. lia.
    + intros j Hj. apply (Permutation_in _ Pm) in Hj. destruct Hj as [<-|Hj]; [lia|]. apply W2 in Hj. lia.
    + intros d j. rewrite W3. split.
      * intros (u & Hu & A & B). exists (changed out place next i u). split; [apply in_map; exact Hu|]. destruct (changed_id out place next i u) as [E1 E2]. rewrite E1, E2. auto.
      * intros (u & Hu & A & B). apply in_map_iff in Hu. destruct Hu as (v & <- & Hv). destruct (changed_id out place next i v) as [E1 E2]. rewrite E1 in B. rewrite E2 in A. exists v. auto.
    + rewrite Enames. exact W4.
  - cbn [n_trans].
    assert (G : forall u, In u (n_trans net) -> grow out place [c] u (changed out place next i u)).
    { intros u Hu. assert (Eq : N.eqb (tr_id u) i = str_mem (tr_name u) [c]).
      { cbn [str_mem existsb]. rewrite orb_false_r. destruct (str_eqb (tr_name u) c) eqn:E.
        - apply str_eqb_eq in E. apply N.eqb_eq. assert (X : dget str_eq_dec ids c = Some (tr_id u)) by (apply W3; exists u; auto). congruence.
        - apply N.eqb_neq. intros X. assert (Y : dget str_eq_dec ids (tr_name u) = Some i) by (apply W3; exists u; auto). apply W3 in Y. destruct Y as (v & Hv & A & B).
          assert (Huv : u = t).
          { clear - NDi Hu Ht X Hi. induction (n_trans net) as [|w l IH]; [destruct Hu|]. cbn [map] in NDi. inversion NDi as [|? ? Hn ND']; subst.
            destruct Hu as [->|Hu], Ht as [->|Ht]; [reflexivity| | |apply IH; assumption]; exfalso; apply Hn; [rewrite X|rewrite <- X]; apply in_map; assumption. }
          subst u. rewrite Hc in E. rewrite str_eqb_refl in E. discriminate. }
      unfold grow, changed. rewrite <- Eq. destruct (N.eqb (tr_id u) i).
      - destruct out; unfold pls; cbn [negb add_in add_out tr_id tr_name tr_silent tr_in tr_out]; rewrite map_app; repeat (split; [reflexivity|]); reflexivity.
      - rewrite app_nil_r. repeat (split; [reflexivity|]). reflexivity. }
    clear - G. induction (n_trans net) as [|u l IH]; constructor; [apply G; left; reflexivity|apply IH; intros v Hv; apply G; right; exact Hv].
Qed.
Lemma Forall2_comp {A} (R S T : A -> A -> Prop) : (forall x y z, R x y -> S y z -> T x z) -> forall l1 l2 l3, Forall2 R l1 l2 -> Forall2 S l2 l3 -> Forall2 T l1 l3.
Proof. intros H l1 l2 l3 F. revert l3. induction F; intros l3 G; inversion G; subst; constructor; eauto. Qed.
Lemma Forall2_same {A} (R : A -> A -> Prop) l : (forall x, R x x) -> Forall2 R l l.
Proof. intros H. induction l; constructor; auto. Qed.
Lemma connects_proof out place ids l : forall net next, wired net next ids -> NoDup l -> (forall c, In c l -> dget str_eq_dec ids c <> None) ->
  exists net' next', loopM (fun nn c => bind (class_id ids c) (fun t => conn out nn t place)) l (net, next) = Ok (net', next') /\ wired net' next' ids /\
    n_places net' = n_places net /\ n_initial net' = n_initial net /\ n_final net' = n_final net /\
    Forall2 (grow out place l) (n_trans net) (n_trans net').
Proof.
  induction l as [|c l IH]; intros net next W ND K.
  - exists net, next. split; [reflexivity|]. split; [exact W|]. repeat (split; [reflexivity|]). apply Forall2_same. intros t. unfold grow. cbn. rewrite app_nil_r. repeat (split; [reflexivity|]). reflexivity.
  - inversion ND as [|? ? Hn ND']; subst. rewrite loopM_cons. unfold class_id at 1. destruct (dget str_eq_dec ids c) as [i|] eqn:Ei; [|exfalso; apply (K c (or_introl eq_refl) Ei)]. cbn [bind].
    destruct (connect_proof out net next ids c i place W Ei) as (n1 & E1 & W1 & A1 & A2 & A3 & F1). rewrite E1. cbn [bind].
    destruct (IH n1 (N.succ next) W1 ND') as (n2 & x2 & E2 & W2 & B1 & B2 & B3 & F2); [intros d Hd; apply K; right; exact Hd|].
    exists n2, x2. split; [exact E2|]. split; [exact W2|]. split; [congruence|]. split; [congruence|]. split; [congruence|].
    eapply Forall2_comp; [|exact F1|exact F2]. intros t u v (P1 & P2 & P3 & P4 & P5) (Q1 & Q2 & Q3 & Q4 & Q5). unfold grow. split; [congruence|]. split; [congruence|]. split; [congruence|]. split; [congruence|].
    rewrite Q5, P5, P2, <- app_assoc. f_equal. cbn [str_mem existsb]. rewrite orb_false_r. unfold str_mem in *. destruct (str_eqb (tr_name t) c) eqn:E; cbn [orb]; [|reflexivity].
    apply str_eqb_eq in E. rewrite E. replace (existsb (str_eqb c) l) with false; [reflexivity|]. symmetry. destruct (existsb (str_eqb c) l) eqn:X; [|reflexivity].
    exfalso. apply Hn. apply str_mem_In. exact X.
Qed.
Lemma dsetN_fresh {V} (d : dict N V) k v : ~ In k (dkeys d) -> dset N.eq_dec d k v = d ++ [(k, v)].
Proof.
  induction d as [|[k' v'] d IH]; intros H; [reflexivity|]. cbn [dset]. destruct (N.eq_dec k k') as [->|Hk]; [exfalso; apply H; left; reflexivity|].
  cbn [app]. f_equal. apply IH. intros X. apply H. right. exact X.
Qed.
Lemma add_place_proof net next ids name : wired net next ids ->
  exists net', add_place (net, next) name = (net', N.succ next, next) /\ wired net' (N.succ next) ids /\
    n_places net' = n_places net ++ [(next, name)] /\ n_initial net' = n_initial net /\ n_final net' = n_final net /\ n_trans net' = n_trans net.
Proof.
  intros [W1 W2 W3 W4].
  assert (Hf : ~ In next (all_ids net)) by (intros H; apply W2 in H; lia).
  assert (E : dset N.eq_dec (n_places net) next name = n_places net ++ [(next, name)]) by (apply dsetN_fresh; intros H; apply Hf; unfold all_ids; rewrite !in_app_iff; auto).
  eexists. split; [reflexivity|].
  assert (Pm : Permutation (all_ids (mkNet (dset N.eq_dec (n_places net) next name) (n_trans net) (n_initial net) (n_final net))) (next :: all_ids net)).
  { unfold all_ids. cbn [n_trans n_places]. rewrite E. unfold dkeys. rewrite map_app. cbn [map fst]. eapply perm_trans; [|symmetry; apply Permutation_middle]. apply Permutation_app_head.
    rewrite <- app_assoc. cbn [app]. symmetry. apply Permutation_middle. }
  split.
  - split; cbn [n_trans]; try assumption.
    + apply (Permutation_NoDup (Permutation_sym Pm)). constructor; assumption.
    + intros j Hj. apply (Permutation_in _ Pm) in Hj. destruct Hj as [<-|Hj]; [lia|]. apply W2 in Hj. lia.
  - cbn [n_places n_initial n_final n_trans]. auto.
Qed.

(** ** The transitions of the classes *)
Lemma class_transitions_proof classes : forall net next ids, wired net next ids -> NoDup classes -> (forall c, In c classes -> ~ In c (map tr_name (n_trans net))) ->
  exists net' next' ids', fold_left (fun '(nn, ids) class => let '(nn, id) := add_transition nn class in (nn, dset str_eq_dec ids class id)) classes ((net, next), ids) = ((net', next'), ids') /\
    wired net' next' ids' /\ n_places net' = n_places net /\ n_initial net' = n_initial net /\ n_final net' = n_final net /\
    map tr_name (n_trans net') = map tr_name (n_trans net) ++ classes /\
    forall t, In t (n_trans net') -> In t (n_trans net) \/ (tr_silent t = false /\ tr_in t = [] /\ tr_out t = []).
Proof.
  induction classes as [|c classes IH]; intros net next ids W ND K.
  - exists net, next, ids. cbn [fold_left]. rewrite app_nil_r. split; [reflexivity|]. auto 8.
  - inversion ND as [|? ? Hn ND']; subst. cbn [fold_left add_transition].
    set (n1 := mkNet (n_places net) (n_trans net ++ [mkTrans next c false [] []]) (n_initial net) (n_final net)).
    destruct W as [W1 W2 W3 W4].
    assert (Pm : Permutation (all_ids n1) (next :: all_ids net)).
    { unfold all_ids, n1. cbn [n_trans n_places]. rewrite map_app, flat_map_app. cbn [map tr_id flat_map arcs_of tr_in tr_out app]. rewrite app_nil_r, <- app_assoc. cbn [app]. symmetry. apply Permutation_middle. }
    assert (Hc : ~ In c (map tr_name (n_trans net))) by (apply K; left; reflexivity).
    assert (Wn : wired n1 (N.succ next) (dset str_eq_dec ids c next)).
    { split.
      - apply (Permutation_NoDup (Permutation_sym Pm)). constructor; [|exact W1]. intros H. apply W2 in H. lia.
      - intros j Hj. apply (Permutation_in _ Pm) in Hj. destruct Hj as [<-|Hj]; [lia|]. apply W2 in Hj. lia.
      - intros d j. rewrite dget_dset. unfold n1. cbn [n_trans]. destruct (str_eq_dec c d) as [->|Hd].
        + split.
          * intros H. injection H as <-. eexists. split; [apply in_app_iff; right; left; reflexivity|]. split; reflexivity.
          * intros (t & Ht & A & B). apply in_app_iff in Ht. destruct Ht as [Ht|[<-|[]]]; [exfalso; apply Hc; rewrite <- A; apply in_map; exact Ht|]. cbn in B. congruence.
        + rewrite W3. split; intros (t & Ht & A & B).
          * exists t. split; [apply in_app_iff; left; exact Ht|auto].
          * apply in_app_iff in Ht. destruct Ht as [Ht|[<-|[]]]; [exists t; auto|]. cbn in A. congruence.
      - unfold n1. cbn [n_trans]. rewrite map_app. cbn [map tr_name]. apply (Permutation_NoDup (Permutation_cons_append _ _)). constructor; assumption. }
    destruct (IH n1 (N.succ next) (dset str_eq_dec ids c next) Wn ND') as (n2 & x2 & ids2 & E & W' & A1 & A2 & A3 & A4 & A5).
    { intros d Hd. unfold n1. cbn [n_trans]. rewrite map_app. cbn [map tr_name]. rewrite in_app_iff. intros [H|[H|[]]]; [apply (K d (or_intror Hd) H)|subst d; contradiction]. }
    exists n2, x2, ids2. split; [exact E|]. split; [exact W'|]. split; [exact A1|]. split; [exact A2|]. split; [exact A3|]. split.
    + rewrite A4. unfold n1. cbn [n_trans]. rewrite map_app. cbn [map tr_name]. rewrite <- app_assoc. reflexivity.
    + intros t Ht. apply A5 in Ht. destruct Ht as [Ht|Ht]; [|auto]. unfold n1 in Ht. cbn [n_trans] in Ht. apply in_app_iff in Ht. destruct Ht as [Ht|[<-|[]]]; [auto|]. right. auto.
Qed.

(** ** The places of the sets *)
Definition at_table (out : bool) (c : pystr) (table : dict N aset) : list N := map fst (filter (fun kv => str_mem c (sd out (snd kv))) table).
Definition built (net : pnet) (table : dict N aset) : Prop :=
  (forall t out, In t (n_trans net) -> pls out t = at_table out (tr_name t) table) /\
  n_places net = map (fun kv => (fst kv, as_string (snd kv))) table.
Definition usable (ids : dict pystr N) (x : aset) : Prop := forall s, NoDup (sd s x) /\ forall c, In c (sd s x) -> dget str_eq_dec ids c <> None.
Lemma Forall2_back {A B} (R : A -> B -> Prop) l l' y : Forall2 R l l' -> In y l' -> exists x, In x l /\ R x y.
Proof. induction 1; intros []; [subst; eauto using in_eq|]. destruct IHForall2 as (u & Hu & Hr); [assumption|]. eauto using in_cons. Qed.
Lemma Forall2_map {A B} (R : A -> A -> Prop) (f : A -> B) l l' : Forall2 R l l' -> (forall x y, R x y -> f y = f x) -> map f l' = map f l.
Proof. induction 1; intros H'; [reflexivity|]. cbn [map]. f_equal; auto. Qed.
Lemma set_place_proof ids net next table x : wired net next ids -> built net table -> usable ids x ->
  exists net' next', set_place ids ((net, next), table) x = Ok ((net', next'), table ++ [(next, x)]) /\ wired net' next' ids /\ built net' (table ++ [(next, x)]) /\
    n_initial net' = n_initial net /\ n_final net' = n_final net /\ map tr_name (n_trans net') = map tr_name (n_trans net) /\ map tr_silent (n_trans net') = map tr_silent (n_trans net).
Proof.
  intros W [B1 B2] Hu. unfold set_place. destruct (add_place_proof net next ids (as_string x) W) as (n1 & E1 & W1 & P1 & I1 & F1 & T1). rewrite E1.
  destruct (connects_proof true next ids (as_left x) n1 (N.succ next) W1 (proj1 (Hu true)) (proj2 (Hu true))) as (n2 & x2 & E2 & W2 & P2 & I2 & F2 & G2).
  destruct (connects_proof false next ids (as_right x) n2 x2 W2 (proj1 (Hu false)) (proj2 (Hu false))) as (n3 & x3 & E3 & W3 & P3 & I3 & F3 & G3).
  cbn [conn] in E2, E3. rewrite E2. cbn [bind]. rewrite E3. cbn [bind]. exists n3, x3.
  assert (Hfresh : ~ In next (dkeys table)).
  { intros H. assert (X : In next (all_ids net)); [|apply (w_fresh _ _ _ W) in X; lia]. unfold all_ids. rewrite !in_app_iff. right. left. rewrite B2. unfold dkeys in *. rewrite map_map. cbn [fst]. exact H. }
  split; [rewrite dsetN_fresh by exact Hfresh; reflexivity|]. split; [exact W3|]. split; [split|].
  - intros t out Ht. destruct (Forall2_back _ _ _ _ G3 Ht) as (u & Hu' & Q1 & Q2 & Q3 & Q4 & Q5). destruct (Forall2_back _ _ _ _ G2 Hu') as (v & Hv & R1 & R2 & R3 & R4 & R5). rewrite T1 in Hv.
    pose proof (B1 v true Hv) as V1. pose proof (B1 v false Hv) as V2. unfold at_table. rewrite filter_app, map_app. cbn [filter map fst snd].
    assert (En : tr_name t = tr_name v) by congruence. rewrite En. destruct out; cbn [negb sd] in *.
    + rewrite Q4, R5, V1. unfold at_table. f_equal. destruct (str_mem (tr_name v) (as_left x)); reflexivity.
    + rewrite Q5, R4, V2. unfold at_table. rewrite R2. f_equal. destruct (str_mem (tr_name v) (as_right x)); reflexivity.
  - rewrite P3, P2, P1, B2, map_app. reflexivity.
  - split; [congruence|]. split; [congruence|]. rewrite <- T1. split.
    + erewrite (Forall2_map _ _ _ _ G3), (Forall2_map _ _ _ _ G2); [reflexivity| |]; intros u v H; apply H.
    + erewrite (Forall2_map _ _ _ _ G3), (Forall2_map _ _ _ _ G2); [reflexivity| |]; intros u v H; apply H.
Qed.
Lemma set_places_proof ids sets : forall net next table, wired net next ids -> built net table -> (forall x, In x sets -> usable ids x) ->
  exists net' next' more, loopM (set_place ids) sets ((net, next), table) = Ok ((net', next'), table ++ more) /\ map snd more = sets /\ wired net' next' ids /\ built net' (table ++ more) /\
    n_initial net' = n_initial net /\ n_final net' = n_final net /\ map tr_name (n_trans net') = map tr_name (n_trans net) /\ map tr_silent (n_trans net') = map tr_silent (n_trans net).
Proof.
  induction sets as [|x sets IH]; intros net next table W B Hu.
  - exists net, next, []. rewrite app_nil_r. split; [reflexivity|]. split; [reflexivity|]. auto 8.
  - rewrite loopM_cons. destruct (set_place_proof ids net next table x W B (Hu x (or_introl eq_refl))) as (n1 & x1 & E1 & W1 & B1 & A1 & A2 & A3 & A4). rewrite E1. cbn [bind].
    destruct (IH n1 x1 (table ++ [(next, x)]) W1 B1) as (n2 & x2 & more & E2 & M2 & W2 & B2 & C1 & C2 & C3 & C4); [intros y Hy; apply Hu; right; exact Hy|].
    exists n2, x2, ((next, x) :: more). rewrite <- app_assoc in E2, B2. cbn [app] in E2, B2. split; [exact E2|]. split; [cbn [map snd]; congruence|]. split; [exact W2|]. split; [exact B2|].
    split; [congruence|]. split; [congruence|]. split; congruence.
Qed.

(** ** The whole net *)
Record described (sets : list aset) (classes starts ends : list pystr) (net : pnet) (next : N) (table : dict N aset) (start stop : N) (ids : dict pystr N) : Prop := {
  de_wired : wired net next ids;
  de_sets : map snd table = sets;
  de_places : n_places net = map (fun kv => (fst kv, as_string (snd kv))) table ++ [(start, str "StartPlace"); (stop, str "EndPlace")];
  de_names : map tr_name (n_trans net) = classes;
  de_loud : forall t, In t (n_trans net) -> tr_silent t = false;
  de_out : forall t, In t (n_trans net) -> pls true t = at_table true (tr_name t) table ++ (if str_mem (tr_name t) ends then [stop] else []);
  de_in : forall t, In t (n_trans net) -> pls false t = at_table false (tr_name t) table ++ (if str_mem (tr_name t) starts then [start] else []);
  de_initial : n_initial net = Some [(start, 1)];
  de_final : n_final net = Some [(stop, 1)] }.

Lemma create_proof ord info sets next : NoDup (r_all_event_classes ord 8 info) ->
  NoDup (ord 9 _ (ri_starts info)) -> NoDup (ord 10 _ (ri_ends info)) ->
  incl (ord 9 _ (ri_starts info)) (r_all_event_classes ord 8 info) -> incl (ord 10 _ (ri_ends info)) (r_all_event_classes ord 8 info) ->
  (forall x s, In x sets -> NoDup (sd s x) /\ incl (sd s x) (r_all_event_classes ord 8 info)) ->
  exists net next' table start stop ids, create_petri_net ord info sets next = Ok ((net, next'), table) /\
    described sets (r_all_event_classes ord 8 info) (ord 9 _ (ri_starts info)) (ord 10 _ (ri_ends info)) net next' table start stop ids.
Proof.
  intros NDc NDs NDe Is Ie Hs. unfold create_petri_net.
  assert (W0 : wired empty_net next []).
  { split; cbn; [constructor|intros i []| |constructor]. intros c i. split; [discriminate|]. intros (t & [] & _). }
  destruct (class_transitions_proof (r_all_event_classes ord 8 info) empty_net next [] W0 NDc) as (n1 & x1 & ids & E1 & W1 & P1 & I1 & F1 & N1 & T1); [intros c _ []|].
  replace (class_transitions (r_all_event_classes ord 8 info) (empty_net, next)) with ((n1, x1), ids) by (symmetry; exact E1). cbn [empty_net n_trans n_places n_initial n_final map app] in *.
  assert (Kn : forall c, In c (r_all_event_classes ord 8 info) -> dget str_eq_dec ids c <> None).
  { intros c Hc. rewrite <- N1 in Hc. apply in_map_iff in Hc. destruct Hc as (t & Ec & Ht). assert (X : dget str_eq_dec ids c = Some (tr_id t)) by (apply (w_class _ _ _ W1); exists t; auto). congruence. }
  destruct (set_places_proof ids sets n1 x1 [] W1) as (n2 & x2 & table & E2 & M2 & W2 & B2 & I2 & F2 & N2 & S2).
  { split; [|rewrite P1; reflexivity]. intros t out Ht. destruct (T1 t Ht) as [[]|(_ & Hin & Hout)]. unfold pls, at_table. cbn [filter map]. destruct out; [rewrite Hout|rewrite Hin]; reflexivity. }
  { intros x Hx s. destruct (Hs x s Hx) as [A B]. split; [exact A|]. intros c Hc. apply Kn, B, Hc. }
  match goal with |- context [bind (loopM (set_place ids) ?a ?b) _] => replace (loopM (set_place ids) a b) with (Ok ((n2, x2), table)) by (symmetry; exact E2) end. cbn [bind app].
  destruct (add_place_proof n2 x2 ids (str "StartPlace") W2) as (n3 & E3 & W3 & P3 & I3 & F3 & T3). rewrite E3.
  destruct (connects_proof false x2 ids (ord 9 _ (ri_starts info)) n3 (N.succ x2) W3 NDs) as (n4 & x4 & E4 & W4 & P4 & I4 & F4 & G4); [intros c Hc; apply Kn, Is, Hc|].
  cbn [conn] in E4. rewrite E4. cbn [bind].
  destruct (add_place_proof n4 x4 ids (str "EndPlace") W4) as (n5 & E5 & W5 & P5 & I5 & F5 & T5). rewrite E5.
  destruct (connects_proof true x4 ids (ord 10 _ (ri_ends info)) n5 (N.succ x4) W5 NDe) as (n6 & x6 & E6 & W6 & P6 & I6 & F6 & G6); [intros c Hc; apply Kn, Ie, Hc|].
  cbn [conn] in E6. rewrite E6. cbn [bind]. eexists _, x6, table, x2, x4, ids. split; [reflexivity|].
  assert (Hback : forall t, In t (n_trans n6) -> exists u, In u (n_trans n2) /\ tr_name t = tr_name u /\
    pls true t = pls true u ++ (if str_mem (tr_name u) (ord 10 _ (ri_ends info)) then [x4] else []) /\
    pls false t = pls false u ++ (if str_mem (tr_name u) (ord 9 _ (ri_starts info)) then [x2] else [])).
  { intros t Ht. destruct (Forall2_back _ _ _ _ G6 Ht) as (u & Hu & Q1 & Q2 & Q3 & Q4 & Q5). rewrite T5 in Hu. destruct (Forall2_back _ _ _ _ G4 Hu) as (v & Hv & R1 & R2 & R3 & R4 & R5). rewrite T3 in Hv.
    exists v. split; [exact Hv|]. split; [congruence|]. cbn [negb] in *. rewrite Q5, Q4, R4, R5, R2. auto. }
  assert (Nm : map tr_name (n_trans n6) = map tr_name (n_trans n2)).
  { rewrite (Forall2_map _ tr_name _ _ G6), T5, (Forall2_map _ tr_name _ _ G4), T3; [reflexivity| |]; intros a b X; apply X. }
  assert (Sl : map tr_silent (n_trans n6) = map tr_silent (n_trans n1)).
  { rewrite (Forall2_map _ tr_silent _ _ G6), T5, (Forall2_map _ tr_silent _ _ G4), T3; [exact S2| |]; intros a b X; apply X. }
  split; cbn [n_places n_trans n_initial n_final].
  - destruct W6 as [X1 X2 X3 X4]. split; assumption.
  - exact M2.
  - rewrite P6, P5, P4, P3, <- app_assoc. destruct B2 as [_ B2]. rewrite B2. reflexivity.
  - congruence.
  - intros t Ht. apply (in_map tr_silent) in Ht. rewrite Sl in Ht. apply in_map_iff in Ht. destruct Ht as (u & <- & Hu). destruct (T1 u Hu) as [[]|(X & _)]. exact X.
  - intros t Ht. destruct (Hback t Ht) as (u & Hu & -> & -> & _). f_equal. apply (proj1 B2 u true Hu).
  - intros t Ht. destruct (Hback t Ht) as (u & Hu & -> & _ & ->). f_equal. apply (proj1 B2 u false Hu).
  - reflexivity.
  - reflexivity.
Qed.

Lemma at_table_In out c table pl : In pl (at_table out c table) <-> exists x, In (pl, x) table /\ In c (sd out x).
Proof.
  unfold at_table. rewrite in_map_iff. split.
  - intros ([q x] & <- & H). apply filter_In in H. destruct H as [H1 H2]. apply str_mem_In in H2. exists x. auto.
  - intros (x & H1 & H2). exists (pl, x). split; [reflexivity|]. apply filter_In. split; [exact H1|]. apply str_mem_In. exact H2.
Qed.
Lemma at_table_NoDup out c table : NoDup (dkeys table) -> NoDup (at_table out c table).
Proof.
  unfold at_table, dkeys. induction table as [|[k x] table IH]; cbn [map filter fst snd]; intros H; [constructor|]. inversion H as [|? ? Hn ND]; subst.
  destruct (str_mem c (sd out x)); [|auto]. cbn [map fst]. constructor; [|auto]. intros X. apply Hn. apply in_map_iff in X. destruct X as (kv & E & X). apply filter_In in X. rewrite <- E. apply in_map, X.
Qed.

Section Desc.
  Variable C U : pystr -> pystr -> Prop.
  Variable sets : list aset.
  Variable classes starts ends : list pystr.
  Variable net : pnet.
  Variable next : N.
  Variable table : dict N aset.
  Variable start stop : N.
  Variable ids : dict pystr N.
  Hypothesis D : described sets classes starts ends net next table start stop ids.
  Hypothesis sets_once : NoDup sets.
  Hypothesis sets_max : forall x, In x sets <-> tidy x /\ maximal C U (as_left x) (as_right x).
  Hypothesis in_classes : forall x s, In x sets -> incl (sd s x) classes.
  Hypothesis starts_in : incl starts classes.
  Hypothesis ends_in : incl ends classes.

  Lemma de_keys : dkeys (n_places net) = dkeys table ++ [start; stop].
  Proof. rewrite (de_places _ _ _ _ _ _ _ _ _ _ D). unfold dkeys. rewrite map_app, map_map. reflexivity. Qed.
  Lemma de_keys_once : NoDup (dkeys table ++ [start; stop]).
  Proof. rewrite <- de_keys. pose proof (w_ids _ _ _ (de_wired _ _ _ _ _ _ _ _ _ _ D)) as H. unfold all_ids in H. apply HMutProofs.NoDup_app_r in H. eapply NoDup_app_l, H. Qed.
  Lemma de_table : NoDup (dkeys table) /\ start <> stop /\ ~ In start (dkeys table) /\ ~ In stop (dkeys table).
  Proof.
    pose proof de_keys_once as H. split; [eapply NoDup_app_l, H|]. split; [|split].
    - apply HMutProofs.NoDup_app_r in H. inversion H; subst. cbn in *. intuition congruence.
    - intros X. eapply (HMutProofs.NoDup_app_disj _ _ _ H X). left. reflexivity.
    - intros X. eapply (HMutProofs.NoDup_app_disj _ _ _ H X). right. left. reflexivity.
  Qed.
  Lemma with_name c : In c classes -> exists t, In t (n_trans net) /\ tr_name t = c.
  Proof. rewrite <- (de_names _ _ _ _ _ _ _ _ _ _ D). intros H. apply in_map_iff in H. destruct H as (t & <- & Ht). eauto. Qed.
  Lemma de_feeds pl c : feeds net pl c <-> (exists x, In (pl, x) table /\ In c (as_left x)) \/ (pl = stop /\ In c ends).
  Proof.
    unfold feeds. split.
    - intros (t & Ht & <- & H). pose proof (de_out _ _ _ _ _ _ _ _ _ _ D t Ht) as E. unfold pls in E. rewrite E in H. apply in_app_iff in H. destruct H as [H|H]; [left; apply at_table_In in H; exact H|].
      right. destruct (str_mem (tr_name t) ends) eqn:X; [|destruct H]. destruct H as [<-|[]]. split; [reflexivity|]. apply str_mem_In, X.
    - intros H. assert (Hc : In c classes).
      { destruct H as [(x & H1 & H2)|[_ H]]; [|apply ends_in, H]. apply (in_classes x true); [|exact H2]. rewrite <- (de_sets _ _ _ _ _ _ _ _ _ _ D). apply (in_map snd) in H1. exact H1. }
      destruct (with_name c Hc) as (t & Ht & <-). exists t. split; [exact Ht|]. split; [reflexivity|]. pose proof (de_out _ _ _ _ _ _ _ _ _ _ D t Ht) as E. unfold pls in E. rewrite E. apply in_app_iff.
      destruct H as [H|[-> H]]; [left; apply at_table_In; exact H|right]. apply str_mem_In in H. rewrite H. left. reflexivity.
  Qed.
  Lemma de_drains pl c : drains net pl c <-> (exists x, In (pl, x) table /\ In c (as_right x)) \/ (pl = start /\ In c starts).
  Proof.
    unfold drains. split.
    - intros (t & Ht & <- & H). pose proof (de_in _ _ _ _ _ _ _ _ _ _ D t Ht) as E. unfold pls in E. rewrite E in H. apply in_app_iff in H. destruct H as [H|H]; [left; apply at_table_In in H; exact H|].
      right. destruct (str_mem (tr_name t) starts) eqn:X; [|destruct H]. destruct H as [<-|[]]. split; [reflexivity|]. apply str_mem_In, X.
    - intros H. assert (Hc : In c classes).
      { destruct H as [(x & H1 & H2)|[_ H]]; [|apply starts_in, H]. apply (in_classes x false); [|exact H2]. rewrite <- (de_sets _ _ _ _ _ _ _ _ _ _ D). apply (in_map snd) in H1. exact H1. }
      destruct (with_name c Hc) as (t & Ht & <-). exists t. split; [exact Ht|]. split; [reflexivity|]. pose proof (de_in _ _ _ _ _ _ _ _ _ _ D t Ht) as E. unfold pls in E. rewrite E. apply in_app_iff.
      destruct H as [H|[-> H]]; [left; apply at_table_In; exact H|right]. apply str_mem_In in H. rewrite H. left. reflexivity.
  Qed.
  Lemma de_stands pl x : In (pl, x) table -> stands_for net pl (as_left x) (as_right x).
  Proof.
    intros H. destruct de_table as (ND & _ & Ns & Ne). assert (Hk : In pl (dkeys table)) by (apply (in_map fst) in H; exact H).
    assert (U1 : forall y, In (pl, y) table -> y = x) by (intros y Hy; pose proof (In_dget N.eq_dec table pl x ND H); pose proof (In_dget N.eq_dec table pl y ND Hy); congruence).
    split; intros c; [rewrite de_feeds|rewrite de_drains]; (split; [intros [(y & Hy & Hc)|[-> _]]; [rewrite (U1 y Hy) in Hc; exact Hc|contradiction]|intros Hc; left; eauto]).
  Qed.
  Lemma described_alpha_net : alpha_net C U (fun c => In c classes) (fun c => In c starts) (fun c => In c ends) net.
  Proof.
    destruct de_table as (ND & Hss & Ns & Ne). pose proof (de_wired _ _ _ _ _ _ _ _ _ _ D) as [W1 W2 W3 W4].
    assert (Hin : forall t, In t (n_trans net) -> map arc_place (tr_in t) = at_table false (tr_name t) table ++ (if str_mem (tr_name t) starts then [start] else [])) by apply (de_in _ _ _ _ _ _ _ _ _ _ D).
    assert (Hout : forall t, In t (n_trans net) -> map arc_place (tr_out t) = at_table true (tr_name t) table ++ (if str_mem (tr_name t) ends then [stop] else [])) by apply (de_out _ _ _ _ _ _ _ _ _ _ D).
    assert (Hk : forall out c pl, In pl (at_table out c table) -> In pl (dkeys table)) by (intros out c pl H; apply at_table_In in H; destruct H as (x & H & _); apply (in_map fst) in H; exact H).
    split.
    - exact W1.
    - exact W4.
    - intros c. rewrite (de_names _ _ _ _ _ _ _ _ _ _ D). reflexivity.
    - apply (de_loud _ _ _ _ _ _ _ _ _ _ D).
    - intros t Ht. rewrite (Hin t Ht). apply NoDup_app_disjoint; [apply at_table_NoDup, ND|destruct (str_mem _ _); repeat constructor; intros []|].
      intros x H1 H2. destruct (str_mem _ starts); [|destruct H2]. destruct H2 as [<-|[]]. apply Ns. eapply Hk, H1.
    - intros t Ht. rewrite (Hout t Ht). apply NoDup_app_disjoint; [apply at_table_NoDup, ND|destruct (str_mem _ _); repeat constructor; intros []|].
      intros x H1 H2. destruct (str_mem _ ends); [|destruct H2]. destruct H2 as [<-|[]]. apply Ne. eapply Hk, H1.
    - intros t a Ht Ha. rewrite de_keys. apply in_app_iff. destruct Ha as [Ha|Ha]; apply (in_map arc_place) in Ha; [rewrite (Hin t Ht) in Ha|rewrite (Hout t Ht) in Ha]; apply in_app_iff in Ha; destruct Ha as [Ha|Ha].
      + left. eapply Hk, Ha.
      + right. destruct (str_mem _ starts); [|destruct Ha]. destruct Ha as [<-|[]]. left. reflexivity.
      + left. eapply Hk, Ha.
      + right. destruct (str_mem _ ends); [|destruct Ha]. destruct Ha as [<-|[]]. right. left. reflexivity.
    - exists start, stop. split; [exact Hss|].
      split; [rewrite (de_places _ _ _ _ _ _ _ _ _ _ D); apply in_app_iff; right; left; reflexivity|].
      split; [rewrite (de_places _ _ _ _ _ _ _ _ _ _ D); apply in_app_iff; right; right; left; reflexivity|].
      split; [apply (de_initial _ _ _ _ _ _ _ _ _ _ D)|]. split; [apply (de_final _ _ _ _ _ _ _ _ _ _ D)|].
      assert (Hnt : forall pl x, In (pl, x) table -> In pl (dkeys table)) by (intros pl x H; apply (in_map fst) in H; exact H).
      split; [intros c H; apply de_feeds in H; destruct H as [(x & H & _)|[H _]]; [apply Ns; eapply Hnt, H|congruence]|].
      split; [intros c; rewrite de_drains; split; [intros [(x & H & _)|[_ H]]; [exfalso; apply Ns; eapply Hnt, H|exact H]|auto]|].
      split; [intros c; rewrite de_feeds; split; [intros [(x & H & _)|[_ H]]; [exfalso; apply Ne; eapply Hnt, H|exact H]|auto]|].
      split; [intros c H; apply de_drains in H; destruct H as [(x & H & _)|[H _]]; [apply Ne; eapply Hnt, H|congruence]|].
      assert (Hpl : forall pl, In pl (dkeys (n_places net)) -> pl <> start -> pl <> stop -> exists x, In (pl, x) table).
      { intros pl H N1 N2. rewrite de_keys in H. apply in_app_iff in H. destruct H as [H|[H|[H|[]]]]; [|congruence|congruence]. unfold dkeys in H. apply in_map_iff in H. destruct H as ([q x] & <- & H). eauto. }
      split.
      + intros pl H N1 N2. destruct (Hpl pl H N1 N2) as (x & Hx). exists (as_left x), (as_right x). split; [|apply de_stands, Hx]. apply sets_max. rewrite <- (de_sets _ _ _ _ _ _ _ _ _ _ D). apply (in_map snd) in Hx. exact Hx.
      + intros A B M. pose (x := mkASet (bset_of A) (bset_of B)).
        assert (SA : same_names A (as_left x)) by (intros c; cbn; rewrite bset_of_In; reflexivity). assert (SB : same_names B (as_right x)) by (intros c; cbn; rewrite bset_of_In; reflexivity).
        assert (Hfit : fits C U (as_left x) (as_right x)).
        { destruct M as [(N1 & N2 & F1 & F2 & F3) _]. split; [|split; [|split; [|split]]].
          - destruct A as [|a A]; [congruence|]. intros E. pose proof (proj1 (SA a) (or_introl eq_refl)) as X. rewrite E in X. destruct X.
          - destruct B as [|a B]; [congruence|]. intros E. pose proof (proj1 (SB a) (or_introl eq_refl)) as X. rewrite E in X. destruct X.
          - intros a b Ha Hb. apply F1; [apply SA, Ha|apply SB, Hb].
          - intros a b Ha Hb. apply F2; apply SA; assumption.
          - intros a b Ha Hb. apply F3; apply SB; assumption. }
        assert (Hx : In x sets).
        { apply sets_max. split; [intros []; apply bset_of_sorted|]. split; [exact Hfit|]. intros A' B' F I1 I2. destruct M as [_ M]. destruct (M A' B' F) as [J1 J2].
          - intros c Hc. apply I1, SA, Hc.
          - intros c Hc. apply I2, SB, Hc.
          - split; intros c Hc; [apply SA, J1, Hc|apply SB, J2, Hc]. }
        pose proof Hx as Hx'. rewrite <- (de_sets _ _ _ _ _ _ _ _ _ _ D) in Hx'. apply in_map_iff in Hx'. destruct Hx' as ([pl y] & Ey & Hy). cbn in Ey. subst y.
        assert (Hst := de_stands pl x Hy). exists pl. assert (Hkey := Hnt _ _ Hy).
        split; [rewrite de_keys; apply in_app_iff; left; exact Hkey|]. split; [intros ->; contradiction|]. split; [intros ->; contradiction|]. split.
        * destruct Hst as [H1 H2]. split; intros c; [rewrite H1; symmetry; apply SA|rewrite H2; symmetry; apply SB].
        * intros pl' Hp' N1 N2 [S1 S2]. destruct (Hpl pl' Hp' N1 N2) as (y & Hy'). destruct (de_stands pl' y Hy') as [T1 T2].
          assert (Iy : In y sets) by (rewrite <- (de_sets _ _ _ _ _ _ _ _ _ _ D); apply (in_map snd) in Hy'; exact Hy').
          assert (Exy : y = x).
          { apply aset_ext; [apply sets_max, Iy|intros []; apply bset_of_sorted|]. intros [] c; cbn [sd]; [rewrite <- T1, S1; apply SA|rewrite <- T2, S2; apply SB]. }
          subst y. clear - Hy Hy' sets_once D. assert (NDs : NoDup (map snd table)) by (rewrite (de_sets _ _ _ _ _ _ _ _ _ _ D); exact sets_once).
          induction table as [|[k z] l IH]; [destruct Hy|]. cbn [map snd] in NDs. inversion NDs as [|? ? Hn ND']; subst.
          destruct Hy as [Hy|Hy], Hy' as [Hy'|Hy']; [congruence| | |].
          -- injection Hy as <- <-. exfalso. apply Hn. apply (in_map snd) in Hy'. exact Hy'.
          -- injection Hy' as <- <-. exfalso. apply Hn. apply (in_map snd) in Hy. exact Hy.
          -- clear D. revert ND' Hy Hy'. clear. induction l as [|[k z] l IH]; [intros _ []|]. cbn [map snd]. intros ND Hy Hy'. inversion ND as [|? ? Hn ND']; subst. destruct Hy as [Hy|Hy], Hy' as [Hy'|Hy']; [congruence| | |apply IH; assumption].
             ++ injection Hy as <- <-. exfalso. apply Hn. apply (in_map snd) in Hy'. exact Hy'.
             ++ injection Hy' as <- <-. exfalso. apply Hn. apply (in_map snd) in Hy. exact Hy.
  Qed.
End Desc.
