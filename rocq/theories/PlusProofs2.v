(** Proofs about the alpha+ algorithm: the whole discovery. *)
From Coq Require Import Permutation Sorted.
From Verif Require Import Py PyFacts InfoModel InfoSpec InfoProofs HashModel EqProofs ReplayModel ReplaySpec ReplayProofs HMutProofs RInfoModel RInfoSpec RInfoProofs AlphaModel AlphaSpec AlphaProofs AlphaProofs2 AlphaProofs3 AlphaProofs4 AlphaProofs5 AlphaProofs6 PlusSpec PlusProofs.

(** ** Panics for missing classes *)
Lemma connects_panic out place ids l : forall net next, wired net next ids -> (exists c, In c l /\ dget str_eq_dec ids c = None) ->
  loopM (fun nn c => bind (class_id ids c) (fun t => conn out nn t place)) l (net, next) = rpanic.
Proof.
  induction l as [|c l IH]; intros net next W (d & Hd & E); [destruct Hd|]. rewrite loopM_cons. unfold class_id at 1. destruct (dget str_eq_dec ids c) as [i|] eqn:Ei; [|reflexivity]. cbn [bind].
  destruct (connect_proof out net next ids c i place W Ei) as (n1 & E1 & W1 & _). rewrite E1. cbn [bind]. apply IH; [exact W1|]. exists d. split; [|exact E]. destruct Hd as [<-|Hd]; [congruence|exact Hd].
Qed.
Lemma create_panic ord info sets next : NoDup (r_all_event_classes ord 8 info) ->
  NoDup (ord 9 _ (ri_starts info)) ->
  (exists c, (In c (ord 9 _ (ri_starts info)) \/ In c (ord 10 _ (ri_ends info))) /\ ~ In c (r_all_event_classes ord 8 info)) ->
  (forall x s, In x sets -> NoDup (sd s x) /\ incl (sd s x) (r_all_event_classes ord 8 info)) ->
  create_petri_net ord info sets next = rpanic.
Proof.
  intros NDc NDs Hc Hs. unfold create_petri_net.
  assert (W0 : wired empty_net next []).
  { split; cbn; [constructor|intros i []| |constructor]. intros c i. split; [discriminate|]. intros (t & [] & _). }
  destruct (class_transitions_proof (r_all_event_classes ord 8 info) empty_net next [] W0 NDc) as (n1 & x1 & ids & E1 & W1 & P1 & I1 & F1 & N1 & T1); [intros c _ []|].
  replace (class_transitions (r_all_event_classes ord 8 info) (empty_net, next)) with ((n1, x1), ids) by (symmetry; exact E1). cbn [empty_net n_trans n_places n_initial n_final map app] in *.
  assert (Kn : forall c, In c (r_all_event_classes ord 8 info) <-> dget str_eq_dec ids c <> None).
  { intros c. rewrite <- N1. split.
    - intros Hin. apply in_map_iff in Hin. destruct Hin as (t & Ec & Ht). assert (X : dget str_eq_dec ids c = Some (tr_id t)) by (apply (w_class _ _ _ W1); exists t; auto). congruence.
    - intros Hin. destruct (dget str_eq_dec ids c) as [i|] eqn:Ei; [|congruence]. apply (w_class _ _ _ W1) in Ei. destruct Ei as (t & Ht & <- & _). apply in_map, Ht. }
  destruct (set_places_proof ids sets n1 x1 [] W1) as (n2 & x2 & table & E2 & M2 & W2 & B2 & I2 & F2 & N2 & S2).
  { split; [|rewrite P1; reflexivity]. intros t out Ht. destruct (T1 t Ht) as [[]|(_ & Hin & Hout)]. unfold pls, at_table. cbn [filter map]. destruct out; [rewrite Hout|rewrite Hin]; reflexivity. }
  { intros x Hx s. destruct (Hs x s Hx) as [A B]. split; [exact A|]. intros c Hin. apply Kn, B, Hin. }
  match goal with |- context [bind (loopM (set_place ids) ?a ?b) _] => replace (loopM (set_place ids) a b) with (Ok ((n2, x2), table)) by (symmetry; exact E2) end. cbn [bind app].
  destruct (add_place_proof n2 x2 ids (str "StartPlace") W2) as (n3 & E3 & W3 & P3 & I3 & F3 & T3). rewrite E3.
  assert (Dec : (exists c, In c (ord 9 _ (ri_starts info)) /\ dget str_eq_dec ids c = None) \/ (forall c, In c (ord 9 _ (ri_starts info)) -> dget str_eq_dec ids c <> None)).
  { generalize (ord 9 _ (ri_starts info)). intros l. induction l as [|c l IH]; [right; intros c []|]. destruct (dget str_eq_dec ids c) as [i|] eqn:Ei.
    - destruct IH as [(d & Hd & E)|H]; [left; exists d; split; [right; exact Hd|exact E]|]. right. intros d [<-|Hd]; [congruence|apply H, Hd].
    - left. exists c. split; [left; reflexivity|exact Ei]. }
  destruct Dec as [Dec|Dec].
  - pose proof (connects_panic false x2 ids (ord 9 _ (ri_starts info)) n3 (N.succ x2) W3 Dec) as E4. cbn [conn] in E4. rewrite E4. reflexivity.
  - destruct (connects_proof false x2 ids (ord 9 _ (ri_starts info)) n3 (N.succ x2) W3 NDs Dec) as (n4 & x4 & E4 & W4 & P4 & I4 & F4 & G4).
    cbn [conn] in E4. rewrite E4. cbn [bind].
    destruct (add_place_proof n4 x4 ids (str "EndPlace") W4) as (n5 & E5 & W5 & P5 & I5 & F5 & T5). rewrite E5.
    assert (De : exists c, In c (ord 10 _ (ri_ends info)) /\ dget str_eq_dec ids c = None).
    { destruct Hc as (c & [H|H] & Hn); [exfalso; apply Hn, Kn, Dec, H|]. exists c. split; [exact H|]. destruct (dget str_eq_dec ids c) as [i|] eqn:Ei; [|reflexivity]. exfalso. apply Hn, Kn. congruence. }
    pose proof (connects_panic true x4 ids (ord 10 _ (ri_ends info)) n5 (N.succ x4) W5 De) as E6. cbn [conn] in E6. rewrite E6. reflexivity.
Qed.
Lemma discover_more ord fuel p next v : discover_petri_net_alpha ord fuel p next = Ok v -> forall more, discover_petri_net_alpha ord (fuel + more) p next = Ok v.
Proof.
  unfold discover_petri_net_alpha, maximize_sets. intros H more. destruct (maximize as_eqb (set_merger p) ord fuel 100 (create_initial_sets ord p)) as [sets|e] eqn:E; [|discriminate].
  rewrite (maximize_more _ _ _ _ _ _ _ E more). exact H.
Qed.

(** ** The relations *)
Lemma plus_relations ord log loops tri : any_order ord -> (forall a b, In (a, b) tri <-> triangle log a b) ->
  let p := plus_provider (r_create_from ord log false (Some loops)) tri in
  (forall a b, ap_causal p a b = true <-> plus_causal log loops a b) /\ (forall a b, ap_unrelated p a b = true <-> unrelated log (Some loops) a b).
Proof.
  intros O Ht p. destruct (counts_proof ord O log false (Some loops)) as (_ & Hcl & _ & Hd & _). split; intros a b; cbn [p plus_provider ap_causal ap_unrelated].
  - unfold plus_causal, follows. rewrite andb_true_iff, orb_true_iff, negb_true_iff, andb_true_iff, <- !Hd, <- !Ht.
    destruct (in_dec pair_eq_dec (a, b) tri), (in_dec pair_eq_dec (b, a) tri), (r_directly_follows _ b a); intuition congruence.
  - unfold unrelated, follows. rewrite andb_true_iff, !negb_true_iff, <- !Hd. destruct (r_directly_follows _ a b), (r_directly_follows _ b a); intuition congruence.
Qed.
Lemma within_maximal_gen p classes (C U : pystr -> pystr -> Prop) : (forall a b, ap_causal p a b = true <-> C a b) -> (forall a b, ap_unrelated p a b = true <-> U a b) ->
  (forall a b, ap_causal p a b = true -> In a classes /\ In b classes) ->
  forall A B, fits C U A B -> exists A' B', maximal C U A' B' /\ incl A A' /\ incl B B'.
Proof.
  intros Hc Hu Hk A B F.
  assert (SA : same_names A (bset_of A)) by (intros c; rewrite bset_of_In; reflexivity). assert (SB : same_names B (bset_of B)) by (intros c; rewrite bset_of_In; reflexivity).
  assert (G : good p (mkASet (bset_of A) (bset_of B))).
  { split; [intros []; apply bset_of_sorted|]. apply (fits_iff _ _ _ _ Hc Hu). cbn [as_left as_right]. destruct F as (N1 & N2 & F1 & F2 & F3). split; [|split; [|split; [|split]]].
    - destruct A as [|a A]; [congruence|]. intros E. pose proof (proj1 (SA a) (or_introl eq_refl)) as X. rewrite E in X. destruct X.
    - destruct B as [|a B]; [congruence|]. intros E. pose proof (proj1 (SB a) (or_introl eq_refl)) as X. rewrite E in X. destruct X.
    - intros a b Ha Hb. apply F1; [apply SA, Ha|apply SB, Hb].
    - intros a b Ha Hb. apply F2; apply SA; assumption.
    - intros a b Ha Hb. apply F3; apply SB; assumption. }
  destruct (maximal_above p classes Hk _ _ G (Nat.lt_succ_diag_r _)) as (M & GM & W & MM).
  exists (as_left M), (as_right M). split; [|split; intros c H; [apply (W true)|apply (W false)]; cbn [sd as_left as_right]; apply bset_of_In; exact H].
  apply (maximal_iff2 _ _ _ _ Hc Hu). apply (maximal_iff p); [apply GM|]. split; [exact GM|exact MM].
Qed.
Lemma occurs_kept log loops c : loops_of log loops -> (In c (occurrences log (Some loops)) <-> (exists t, In t log /\ In c t) /\ ~ one_loop log c).
Proof.
  intros [_ H]. rewrite occurrences_In. split.
  - intros (t & Ht & Hc). rewrite kept_In in Hc. destruct Hc as [H1 H2]. rewrite H in H2. split; [eauto|exact H2].
  - intros ((t & Ht & Hc) & Hn). exists t. split; [exact Ht|]. rewrite kept_In, H. auto.
Qed.

(** ** The net without the loops *)
Section Plus.
  Variable ord : nat -> forall A : Type, list A -> list A.
  Hypothesis O : any_order ord.
  Variable log : list (list pystr).
  Variable loops : list pystr.
  Hypothesis L : loops_of log loops.
  Variable tri : list (pystr * pystr).
  Hypothesis T : forall a b, In (a, b) tri <-> triangle log a b.
  Let info := r_create_from ord log false (Some loops).
  Let p := plus_provider info tri.
  Lemma plus_info_classes k c : In c (r_all_event_classes ord k info) <-> (exists t, In t log /\ In c t) /\ ~ one_loop log c.
  Proof. destruct (counts_proof ord O log false (Some loops)) as (_ & Hcl & _). fold info in Hcl. rewrite (proj2 (Hcl k)). apply occurs_kept, L. Qed.
  Lemma plus_CU : forall a b, ap_causal p a b = true -> ~ ap_unrelated p a b = true.
  Proof. destruct (plus_relations ord log loops tri O T) as [Hc Hu]. intros a b H1 H2. apply Hc in H1. apply Hu in H2. destruct H1, H2. contradiction. Qed.
  Lemma plus_classes : forall a b, ap_causal p a b = true -> In a (dkeys (ri_classes info)) /\ In b (dkeys (ri_classes info)).
  Proof.
    destruct (plus_relations ord log loops tri O T) as [Hc Hu]. intros a b H. apply Hc in H. destruct H as [H _]. apply steps_classes in H.
    destruct (counts_proof ord O log false (Some loops)) as (_ & Hcl & _). fold info in Hcl. rewrite <- !(proj2 (Hcl 0)) in H. unfold r_all_event_classes in H. rewrite !(ord_In ord O) in H. exact H.
  Qed.
  Lemma plus_keys : forall a b, ap_causal p a b = true -> r_followed (ri_dfg info) a <> None.
  Proof. destruct (plus_relations ord log loops tri O T) as [Hc Hu]. intros a b H. apply Hc in H. eapply steps_key; [exact O|apply H]. Qed.
  Lemma plus_once : NoDup (dkeys (ri_classes info)).
  Proof. destruct (counts_proof ord O log false (Some loops)) as (_ & Hcl & _). fold info in Hcl. destruct (Hcl 0) as [X _]. eapply Permutation_NoDup; [apply O|exact X]. Qed.
  Lemma begins_in c : begins_trace log c -> exists t, In t log /\ In c t.
  Proof. intros [t H]. exists (c :: t). split; [exact H|left; reflexivity]. Qed.
  Lemma ends_in c : ends_trace log c -> exists t, In t log /\ In c t.
  Proof. intros [t H]. exists (t ++ [c]). split; [exact H|]. apply in_app_iff. right. left. reflexivity. Qed.

  Lemma plus_panic next : (exists c, (begins_trace log c \/ ends_trace log c) /\ one_loop log c) ->
    exists fuel0, forall fuel, fuel0 <= fuel -> discover_petri_net_alpha ord fuel p next = rpanic.
  Proof.
    intros (c & Hc & Hl). assert (Hk : forall k a b, ap_causal p a b = true -> In a (r_all_event_classes ord k (ap_info p)) /\ In b (r_all_event_classes ord k (ap_info p))).
    { intros k a b H. cbn [p plus_provider ap_info]. unfold r_all_event_classes. rewrite !(ord_In ord O). apply plus_classes, H. }
    destruct (sets_proof ord O p (dkeys (ri_classes info)) plus_CU plus_classes plus_keys Hk) as (fuel0 & r & E & ND & M).
    exists fuel0. intros fuel Hf. unfold discover_petri_net_alpha. rewrite (E fuel Hf). cbn [bind]. destruct (starts_proof ord log false (Some loops)) as (S1 & S2 & S3 & S4). fold info in S1, S2, S3, S4.
    apply create_panic; cbn [p plus_provider ap_info].
    - eapply Permutation_NoDup; [symmetry; apply O|exact plus_once].
    - eapply Permutation_NoDup; [symmetry; apply O|exact S1].
    - exists c. rewrite !(ord_In ord O), S3, S4. split; [exact Hc|]. rewrite plus_info_classes. tauto.
    - intros x s Hx. apply M in Hx. destruct Hx as [Tx Hx]. split; [apply bsorted_NoDup, Tx|]. intros d Hd.
      unfold r_all_event_classes. rewrite (ord_In ord O). apply (good_sd p (dkeys (ri_classes info)) plus_classes x s); [|exact Hd]. split; [exact Tx|apply Hx].
  Qed.

  Hypothesis W : starts_well log.
  Lemma plus_base next : exists fuel0 sets net next' table start stop ids,
    (forall fuel, fuel0 <= fuel -> discover_petri_net_alpha ord fuel p next = Ok ((net, next'), table)) /\
    NoDup sets /\ (forall x, In x sets <-> tidy x /\ maximal (plus_causal log loops) (unrelated log (Some loops)) (as_left x) (as_right x)) /\
    described sets (r_all_event_classes ord 8 info) (ord 9 _ (ri_starts info)) (ord 10 _ (ri_ends info)) net next' table start stop ids /\
    plus_net log loops net /\
    (forall place x, In (place, x) table <-> In (place, as_string x) (n_places net) /\ tidy x /\
       maximal (plus_causal log loops) (unrelated log (Some loops)) (as_left x) (as_right x) /\ stands_for net place (as_left x) (as_right x)).
  Proof.
    destruct (plus_relations ord log loops tri O T) as [Hc Hu]. fold info in Hc, Hu. fold p in Hc, Hu. destruct (starts_proof ord log false (Some loops)) as (S1 & S2 & S3 & S4). fold info in S1, S2, S3, S4.
    assert (Hi : forall c, In c (dkeys (ri_classes info)) <-> (exists t, In t log /\ In c t) /\ ~ one_loop log c).
    { intros c. rewrite <- (plus_info_classes 0). unfold r_all_event_classes. rewrite (ord_In ord O). reflexivity. }
    destruct (discover_proof ord O p plus_CU plus_classes plus_keys plus_once S1 S2) with (next := next) as (fuel0 & sets & net & next' & table & start & stop & ids & E & ND & M & Hin & D).
    - intros c H. apply Hi. apply S3 in H. split; [apply begins_in, H|apply W; auto].
    - intros c H. apply Hi. apply S4 in H. split; [apply ends_in, H|apply W; auto].
    - exists fuel0, sets, net, next', table, start, stop, ids. split; [exact E|]. split; [exact ND|].
      assert (M' : forall x, In x sets <-> tidy x /\ maximal (plus_causal log loops) (unrelated log (Some loops)) (as_left x) (as_right x)).
      { intros x. rewrite M. rewrite (maximal_iff2 _ _ _ _ Hc Hu). reflexivity. }
      split; [exact M'|]. split; [exact D|].
      assert (Is : incl (ord 9 pystr (ri_starts info)) (r_all_event_classes ord 8 info)).
      { intros c H. apply (ord_In ord O) in H. apply plus_info_classes. apply S3 in H. split; [apply begins_in, H|apply W; auto]. }
      assert (Ie : incl (ord 10 pystr (ri_ends info)) (r_all_event_classes ord 8 info)).
      { intros c H. apply (ord_In ord O) in H. apply plus_info_classes. apply S4 in H. split; [apply ends_in, H|apply W; auto]. }
      pose proof (described_alpha_net _ _ _ _ _ _ _ _ _ _ _ _ D ND M Hin Is Ie) as AN. split; [split|].
      + eapply alpha_net_iff; [exact Hc|exact Hu| | | |exact AN]; intros c; cbn [p plus_provider ap_info].
        * apply plus_info_classes.
        * rewrite (ord_In ord O). apply S3.
        * rewrite (ord_In ord O). apply S4.
      + intros place name H. rewrite (de_places _ _ _ _ _ _ _ _ _ _ D) in H. apply in_app_iff in H. destruct H as [H|[H|[H|[]]]].
        * right. right. apply in_map_iff in H. destruct H as ([q y] & Ey & Hy). cbn [fst snd] in Ey. injection Ey as -> <-. exists y. split; [reflexivity|].
          assert (Hy' : In y sets) by (rewrite <- (de_sets _ _ _ _ _ _ _ _ _ _ D); apply (in_map snd) in Hy; exact Hy). apply M' in Hy'. split; [apply Hy'|]. split; [apply Hy'|].
          eapply de_stands; [exact D|exact Hin|exact Is|exact Ie|exact Hy].
        * left. injection H as <- <-. split; [reflexivity|apply (de_initial _ _ _ _ _ _ _ _ _ _ D)].
        * right. left. injection H as <- <-. split; [reflexivity|apply (de_final _ _ _ _ _ _ _ _ _ _ D)].
      + intros place x. split.
        * intros H. split; [rewrite (de_places _ _ _ _ _ _ _ _ _ _ D); apply in_app_iff; left; apply (in_map (fun kv => (fst kv, as_string (snd kv)))) in H; exact H|].
          assert (Hx : In x sets) by (rewrite <- (de_sets _ _ _ _ _ _ _ _ _ _ D); apply (in_map snd) in H; exact H). apply M' in Hx. split; [apply Hx|]. split; [apply Hx|].
          eapply de_stands; [exact D|exact Hin|exact Is|exact Ie|exact H].
        * intros (H1 & H2 & H3 & H4). rewrite (de_places _ _ _ _ _ _ _ _ _ _ D) in H1. apply in_app_iff in H1. destruct H1 as [H1|[H1|[H1|[]]]].
          -- apply in_map_iff in H1. destruct H1 as ([q y] & Ey & Hy). cbn [fst snd] in Ey. assert (q = place) by congruence. subst q. clear Ey.
             assert (Hy' : In y sets) by (rewrite <- (de_sets _ _ _ _ _ _ _ _ _ _ D); apply (in_map snd) in Hy; exact Hy).
             destruct (de_stands _ _ _ _ _ _ _ _ _ _ D Hin Is Ie place y Hy) as [T1 T2]. destruct H4 as [T3 T4].
             replace x with y; [exact Hy|]. apply aset_ext; [apply M', Hy'|exact H2|]. intros [] c; cbn [sd]; [rewrite <- T1, T3|rewrite <- T2, T4]; reflexivity.
          -- exfalso. injection H1 as _ H1. revert H1. unfold as_string. cbn. discriminate.
          -- exfalso. injection H1 as _ H1. revert H1. unfold as_string. cbn. discriminate.
  Qed.
End Plus.

(** ** The connections of alpha++ *)
Lemma mapM_nothing {A} (f : A -> result (list (N * N) * list (N * N))) l : (forall x, In x l -> f x = Ok ([], [])) ->
  exists found, mapM f l = Ok found /\ concat (map fst found) = [] /\ concat (map snd found) = [].
Proof.
  induction l as [|x l IH]; intros H; [exists []; auto|]. destruct IH as (found & E & E1 & E2); [intros y Hy; apply H; right; exact Hy|].
  exists (([], []) :: found). cbn [mapM]. rewrite (H x (or_introl eq_refl)). cbn [bind]. rewrite E. cbn [bind map fst snd concat app]. auto.
Qed.
Lemma snd_once (table : dict N aset) a b x : NoDup (map snd table) -> In (a, x) table -> In (b, x) table -> a = b.
Proof.
  induction table as [|[k y] table IH]; intros ND Ha Hb; [destruct Ha|]. cbn [map snd] in ND. inversion ND as [|? ? Hn ND']; subst.
  destruct Ha as [Ha|Ha], Hb as [Hb|Hb]; [congruence| | |apply IH; assumption]; exfalso; apply Hn; [injection Ha as _ ->|injection Hb as _ ->].
  - apply (in_map snd) in Hb. exact Hb.
  - apply (in_map snd) in Ha. exact Ha.
Qed.
Lemma plus_plus_nothing ord loops table net next (more : list ptrans) (C U : pystr -> pystr -> Prop) : any_order ord ->
  NoDup (map snd table) -> (forall x, In x (map snd table) -> tidy x /\ maximal C U (as_left x) (as_right x)) ->
  (forall c t, In c loops -> find_transition_by_name net c = Some t -> exists pl, map arc_place (tr_in t) = [pl] /\ map arc_place (tr_out t) = [pl] /\ In pl (dkeys (n_places net))) ->
  add_alpha_plus_plus_transitions ord loops table (net, next) = Ok (net, next).
Proof.
  intros O ND M K.
  assert (Q : forall place x pl arcs, dget N.eq_dec table place = Some x -> map arc_place arcs = [pl] -> In pl (dkeys (n_places net)) -> plus_plus_places net table place x arcs = Ok []).
  { intros place x pl arcs Hx Ha Hp. destruct arcs as [|a [|? ?]]; try discriminate. injection Ha as Ha. unfold plus_plus_places. rewrite loopM_cons, Ha. destruct (N.eqb pl place) eqn:En; [reflexivity|].
    destruct (dget N.eq_dec (n_places net) pl) as [nm|] eqn:Ed; [|apply dget_None in Ed; contradiction]. destruct (dget N.eq_dec table pl) as [y|] eqn:Ey; [|reflexivity].
    destruct (is_full_subset x y) eqn:Es; [|reflexivity]. exfalso. apply N.eqb_neq in En. apply En. apply dget_In in Hx. apply dget_In in Ey.
    assert (Exy : x = y).
    { destruct (M x) as [Tx [Fx Mx]]; [apply (in_map snd) in Hx; exact Hx|]. destruct (M y) as [Ty [Fy My]]; [apply (in_map snd) in Ey; exact Ey|].
      unfold is_full_subset, is_left_subset, is_right_subset in Es. apply andb_true_iff in Es. destruct Es as [E1 E2]. apply bset_subset_spec in E1. apply bset_subset_spec in E2. destruct (Mx _ _ Fy E1 E2) as [I1 I2].
      apply aset_ext; [exact Tx|exact Ty|]. intros [] c; cbn [sd]; split; auto. }
    subst y. eapply snd_once; [exact ND|exact Ey|exact Hx]. }
  unfold add_alpha_plus_plus_transitions. cbn [fst].
  match goal with |- bind (mapM ?f ?l) _ = _ => destruct (mapM_nothing f l) as (found & E & E1 & E2) end.
  - intros c Hc. apply (ord_In ord O) in Hc. destruct (find_transition_by_name net c) as [t|] eqn:Et; [|reflexivity]. destruct (K c t Hc Et) as (pl & H1 & H2 & H3).
    match goal with |- bind (mapM ?f ?l) _ = _ => destruct (mapM_nothing f l) as (found & E & E1 & E2) end.
    + intros [k v] Hk. cbn [fst]. destruct (dget N.eq_dec table k) as [x|] eqn:Ex; [|reflexivity]. rewrite (Q k x pl (tr_out t) Ex H2 H3), (Q k x pl (tr_in t) Ex H1 H3). reflexivity.
    + rewrite E. cbn [bind]. rewrite E1, E2. reflexivity.
  - rewrite E. cbn [bind]. rewrite E1, E2. cbn [pairs_once nodup].
    assert (Z : forall k, ord k (N * N)%type (pairs_once []) = []) by (intros k; apply Permutation_nil, Permutation_sym, O). rewrite !Z. reflexivity.
Qed.

(** ** The whole discovery *)
Lemma plus_start log : long_enough log -> exists loops tri, find_transitions_one_length_loop log = Ok loops /\ loops_of log loops /\
  calculate_triangle_relations log = Ok tri /\ forall a b, In (a, b) tri <-> triangle log a b.
Proof.
  intros H. destruct (loops_proof log [] (NoDup_nil _)) as (loops & E1 & ND & H1); [intros t Ht ->; apply H in Ht; cbn in Ht; lia|]. destruct (triangles_proof log [] H) as (tri & E2 & H2).
  exists loops, tri. split; [exact E1|]. split; [split; [exact ND|intros c; rewrite H1; cbn [In]; tauto]|]. split; [exact E2|]. intros a b. rewrite H2. cbn [In]. tauto.
Qed.
Lemma short_panics ord log : ~ long_enough log -> forall fuel pp next, discover_alpha_plus_part ord fuel log pp next = rpanic.
Proof.
  intros H fuel pp next. assert (X : exists t, In t log /\ length t < 2).
  { clear fuel pp next. induction log as [|t log IH]; [exfalso; apply H; intros t []|]. destruct (le_lt_dec 2 (length t)) as [Hl|Hl]; [|exists t; split; [left; reflexivity|exact Hl]].
    destruct IH as (u & Hu & Lu); [intros K; apply H; intros u [<-|Hu]; [exact Hl|apply K, Hu]|]. exists u. split; [right; exact Hu|exact Lu]. }
  unfold discover_alpha_plus_part. destruct (in_dec (list_eq_dec str_eq_dec) [] log) as [He|He].
  - unfold find_transitions_one_length_loop. rewrite (loops_panic log (ex_intro _ [] (conj He eq_refl))). reflexivity.
  - unfold find_transitions_one_length_loop. destruct (loops_proof log [] (NoDup_nil _)) as (loops & -> & _); [intros t Ht ->; contradiction|]. cbn [bind].
    unfold calculate_triangle_relations. rewrite (triangles_panic log X). reflexivity.
Qed.
Lemma loop_end_panics ord log : any_order ord -> long_enough log -> (exists c, (begins_trace log c \/ ends_trace log c) /\ one_loop log c) ->
  forall next, exists fuel0, forall fuel pp, fuel0 <= fuel -> discover_alpha_plus_part ord fuel log pp next = rpanic.
Proof.
  intros O H Hc next. destruct (plus_start log H) as (loops & tri & E1 & L & E2 & T). destruct (plus_panic ord O log loops L tri T next Hc) as (fuel0 & E). exists fuel0. intros fuel pp Hf.
  unfold discover_alpha_plus_part. rewrite E1. cbn [bind]. rewrite E2. cbn [bind]. unfold discover_petri_net_alpha_plus. rewrite (E fuel Hf). reflexivity.
Qed.
Lemma plus_net_proof ord log : any_order ord -> long_enough log -> starts_well log -> forall next, exists loops fuel0 base net next' table,
  loops_of log loops /\
  (forall fuel pp, fuel0 <= fuel -> discover_alpha_plus_part ord fuel log pp next = Ok ((net, next'), table)) /\
  plus_net log loops base /\ with_loops log loops base net /\ (forall i, In i (all_ids net) -> (i < next')%N) /\
  (forall place x, In (place, x) table <-> In (place, as_string x) (n_places base) /\ tidy x /\
     maximal (plus_causal log loops) (unrelated log (Some loops)) (as_left x) (as_right x) /\ stands_for base place (as_left x) (as_right x)).
Proof.
  intros O H W next. destruct (plus_start log H) as (loops & tri & E1 & L & E2 & T).
  destruct (plus_base ord O log loops L tri T W next) as (fuel0 & sets & base & x1 & table & start & stop & ids & E & ND & M & D & AN & Tb).
  set (info := r_create_from ord log false None).
  destruct (add_loops_proof ord log base (ord 20 _ loops) O base x1 [] []) as (net & x2 & more & new & E3 & F & I1 & I2 & T2 & P2 & ND2 & Hn2 & Hw2 & M2 & Ht2).
  { destruct (de_wired _ _ _ _ _ _ _ _ _ _ D) as [W1 W2 _ _]. split; assumption. }
  { rewrite app_nil_r. reflexivity. } { rewrite app_nil_r. reflexivity. } { constructor. } { intros name []. }
  cbn [app] in *. fold info in E3, Hw2, Ht2.
  assert (WL : with_loops log loops base net).
  { split; [apply F|exact I1|exact I2| |].
    - exists more. split; [exact T2|]. split; [rewrite M2; apply O|]. intros t Ht. destruct (Ht2 t Ht) as (A & pl & B1 & B2 & B3). split; [exact A|]. exists pl, (neighbours_set ord info (tr_name t)).
      split; [apply neighbours_set_proof, O|]. auto.
    - exists new. split; [exact P2|]. split; [exact ND2|]. intros name Hn. split; [apply Hn2, Hn|]. destruct (Hw2 name Hn) as (c & Hc & ->). exists c, (neighbours_set ord info c). split; [apply (ord_In ord O) in Hc; exact Hc|]. split; [apply neighbours_set_proof, O|reflexivity]. }
  exists loops, fuel0, base, net, x2, table. split; [exact L|]. split; [|split; [exact AN|split; [exact WL|split; [apply F|exact Tb]]]].
  intros fuel pp Hf. unfold discover_alpha_plus_part. rewrite E1. cbn [bind]. rewrite E2. cbn [bind]. unfold discover_petri_net_alpha_plus. rewrite (E fuel Hf). cbn [bind]. unfold add_one_length_loops. fold info.
  match goal with |- context [bind (loopM ?f ?a ?b) _] => replace (loopM f a b) with (Ok (net, x2)) by (symmetry; exact E3) end. cbn [bind]. destruct pp; [|reflexivity].
  rewrite (plus_plus_nothing ord loops table net x2 more (plus_causal log loops) (unrelated log (Some loops)) O); [reflexivity| | |].
  - rewrite (de_sets _ _ _ _ _ _ _ _ _ _ D). exact ND.
  - intros x Hx. rewrite (de_sets _ _ _ _ _ _ _ _ _ _ D) in Hx. apply M, Hx.
  - intros c t Hc Et. unfold find_transition_by_name in Et. apply find_some in Et. destruct Et as [Ht Hn]. apply str_eqb_eq in Hn. rewrite T2 in Ht. apply in_app_iff in Ht. destruct Ht as [Ht|Ht].
    + exfalso. apply (in_map tr_name) in Ht. apply (an_classes _ _ _ _ _ _ (proj1 AN)) in Ht. rewrite Hn in Ht. destruct Ht as [_ Ht]. apply Ht, L, Hc.
    + destruct (Ht2 t Ht) as (_ & pl & B1 & B2 & B3). exists pl. split; [exact B1|]. split; [exact B2|]. apply (in_map fst) in B3. exact B3.
Qed.
Lemma plus_more ord fuel log pp next v : discover_alpha_plus_part ord fuel log pp next = Ok v -> forall more, discover_alpha_plus_part ord (fuel + more) log pp next = Ok v.
Proof.
  unfold discover_alpha_plus_part, discover_petri_net_alpha_plus. intros H more. destruct (find_transitions_one_length_loop log) as [loops|]; [|discriminate]. cbn [bind] in *. destruct (calculate_triangle_relations log) as [tri|]; [|discriminate]. cbn [bind] in *.
  destruct (discover_petri_net_alpha ord fuel _ next) as [w|] eqn:E; [|discriminate]. rewrite (discover_more _ _ _ _ _ E more). exact H.
Qed.
Lemma starts_well_dec log : starts_well log \/ exists c, (begins_trace log c \/ ends_trace log c) /\ one_loop log c.
Proof.
  assert (D : forall c, one_loop log c \/ ~ one_loop log c).
  { intros c. unfold one_loop, next_to. rewrite <- follows_split. unfold follows. destruct (in_dec pair_eq_dec (c, c) (steps log None false)); auto. }
  assert (G : forall l, (forall c, In c l -> ~ one_loop log c) \/ exists c, In c l /\ one_loop log c).
  { induction l as [|c l IH]; [left; intros c []|]. destruct (D c) as [Hc|Hc]; [right; exists c; split; [left; reflexivity|exact Hc]|]. destruct IH as [IH|(d & Hd & H)].
    - left. intros d [<-|Hd]; [exact Hc|apply IH, Hd].
    - right. exists d. split; [right; exact Hd|exact H]. }
  set (o := fun (_ : nat) (A : Type) (l : list A) => l). destruct (starts_proof o log false None) as (_ & _ & S3 & S4).
  destruct (G (ri_starts (r_create_from o log false None) ++ ri_ends (r_create_from o log false None))) as [H|(c & Hc & H)].
  - left. intros c Hc. apply H. apply in_app_iff. rewrite S3, S4. exact Hc.
  - right. exists c. split; [|exact H]. apply in_app_iff in Hc. rewrite S3, S4 in Hc. exact Hc.
Qed.
Lemma long_dec log : long_enough log \/ ~ long_enough log.
Proof.
  induction log as [|t log IH]; [left; intros t []|]. destruct (le_lt_dec 2 (length t)) as [Hl|Hl].
  - destruct IH as [H|H]; [left; intros u [<-|Hu]; [exact Hl|apply H, Hu]|right; intros K; apply H; intros u Hu; apply K; right; exact Hu].
  - right. intros K. specialize (K t (or_introl eq_refl)). lia.
Qed.
Lemma plus_result_proof ord log : any_order ord -> forall fuel pp next net next' table, discover_alpha_plus_part ord fuel log pp next = Ok ((net, next'), table) ->
  long_enough log /\ starts_well log /\ exists loops base, loops_of log loops /\ plus_net log loops base /\ with_loops log loops base net /\
  (forall i, In i (all_ids net) -> (i < next')%N) /\
  (forall place x, In (place, x) table <-> In (place, as_string x) (n_places base) /\ tidy x /\
     maximal (plus_causal log loops) (unrelated log (Some loops)) (as_left x) (as_right x) /\ stands_for base place (as_left x) (as_right x)).
Proof.
  intros O fuel pp next net next' table E. destruct (long_dec log) as [H|H]; [|rewrite (short_panics ord log H) in E; discriminate]. split; [exact H|].
  destruct (starts_well_dec log) as [W|W].
  - split; [exact W|]. destruct (plus_net_proof ord log O H W next) as (loops & fuel0 & base & net0 & n0 & t0 & L & R & A & B). exists loops, base. split; [exact L|]. split; [exact A|].
    pose proof (plus_more ord fuel log pp next _ E fuel0) as X. rewrite (R (fuel + fuel0) pp ltac:(lia)) in X. injection X as <- <- <-. exact B.
  - exfalso. destruct (loop_end_panics ord log O H W next) as (fuel0 & R). pose proof (plus_more ord fuel log pp next _ E fuel0) as X. rewrite (R (fuel + fuel0) pp ltac:(lia)) in X. discriminate.
Qed.
Lemma plus_plus_same_proof ord log : any_order ord -> forall fuel next, discover_alpha_plus_part ord fuel log true next = discover_alpha_plus_part ord fuel log false next.
Proof.
  intros O fuel next. destruct (long_dec log) as [H|H]; [|rewrite !(short_panics ord log H); reflexivity].
  assert (Q : exists fuel0, forall fuel, fuel0 <= fuel -> discover_alpha_plus_part ord fuel log true next = discover_alpha_plus_part ord fuel log false next).
  { destruct (starts_well_dec log) as [W|W].
    - destruct (plus_net_proof ord log O H W next) as (loops & fuel0 & base & net0 & n0 & t0 & L & R & _). exists fuel0. intros f Hf. rewrite !R by exact Hf. reflexivity.
    - destruct (loop_end_panics ord log O H W next) as (fuel0 & R). exists fuel0. intros f Hf. rewrite !R by exact Hf. reflexivity. }
  destruct Q as (fuel0 & Q). specialize (Q (fuel + fuel0) ltac:(lia)). destruct (plus_start log H) as (loops & tri & E1 & L & E2 & T).
  unfold discover_alpha_plus_part, discover_petri_net_alpha_plus in *. rewrite E1 in *. cbn [bind] in *. rewrite E2 in *. cbn [bind] in *.
  destruct (discover_petri_net_alpha ord fuel _ next) as [w|] eqn:E; [|reflexivity]. rewrite (discover_more _ _ _ _ _ E fuel0) in Q. exact Q.
Qed.

(** ** What the net connects *)
Section Connected.
  Variable log : list (list pystr).
  Variable loops : list pystr.
  Variable base net : pnet.
  Hypothesis L : loops_of log loops.
  Hypothesis A : plus_net log loops base.
  Hypothesis WL : with_loops log loops base net.
  Lemma base_trans t : In t (n_trans net) -> ~ In (tr_name t) loops -> In t (n_trans base).
  Proof.
    destruct (wl_trans _ _ _ _ WL) as (more & E & Pm & _). rewrite E, in_app_iff. intros [H|H] Hn; [exact H|]. exfalso. apply Hn. apply (Permutation_in _ Pm). apply in_map, H.
  Qed.
  Lemma base_loud t : In t (n_trans base) -> ~ In (tr_name t) loops.
  Proof. intros Ht H. apply (in_map tr_name) in Ht. apply (an_classes _ _ _ _ _ _ (proj1 A)) in Ht. destruct Ht as [_ Ht]. apply Ht, L, H. Qed.
  Lemma base_in t : In t (n_trans base) -> In t (n_trans net).
  Proof. destruct (wl_trans _ _ _ _ WL) as (more & E & _). rewrite E, in_app_iff. auto. Qed.
  Lemma feeds_base pl c : ~ In c loops -> (feeds net pl c <-> feeds base pl c).
  Proof. intros Hc. unfold feeds. split; intros (t & Ht & <- & H); exists t; (split; [|auto]); [apply base_trans; assumption|apply base_in, Ht]. Qed.
  Lemma drains_base pl c : ~ In c loops -> (drains net pl c <-> drains base pl c).
  Proof. intros Hc. unfold drains. split; intros (t & Ht & <- & H); exists t; (split; [|auto]); [apply base_trans; assumption|apply base_in, Ht]. Qed.
  Lemma plus_within S T : fits (plus_causal log loops) (unrelated log (Some loops)) S T -> exists S' T', maximal (plus_causal log loops) (unrelated log (Some loops)) S' T' /\ incl S S' /\ incl T T'.
  Proof.
    set (ord := fun (_ : nat) (A : Type) (l : list A) => l). assert (O : any_order ord) by (intros k T0 l; reflexivity).
    destruct (triangles_proof (filter (fun t => 2 <=? length t) log) []) as (tri & _ & H); [intros t Ht; apply filter_In in Ht; destruct Ht as [_ Ht]; apply Nat.leb_le in Ht; exact Ht|].
    assert (H' : forall a b, In (a, b) tri <-> triangle log a b).
    { intros a b. rewrite H. unfold triangle. split.
      - intros [[]|(l1 & l2 & X)]. apply filter_In in X. exists l1, l2. apply X.
      - intros (l1 & l2 & X). right. exists l1, l2. apply filter_In. split; [exact X|]. apply Nat.leb_le. rewrite app_length. cbn [length]. lia. }
    destruct (plus_relations ord log loops tri O H') as [Hc Hu]. apply (within_maximal_gen _ (dkeys (ri_classes (r_create_from ord log false (Some loops)))) _ _ Hc Hu). apply (plus_classes ord O log loops tri H').
  Qed.
  Lemma plus_connected_proof a b : ~ one_loop log a -> ~ one_loop log b ->
    ((exists place, feeds net place a /\ drains net place b) <-> (plus_causal log loops a b /\ ~ follows log (Some loops) a a /\ ~ follows log (Some loops) b b)).
  Proof.
    intros Ha Hb. rewrite <- (proj2 L) in Ha, Hb. destruct (an_places _ _ _ _ _ _ (proj1 A)) as (start & stop & Hss & Hst & Hen & Hi & Hf & P1 & P2 & P3 & P4 & P5 & P6). split.
    - intros (pl & H1 & H2). rewrite feeds_base in H1 by exact Ha. rewrite drains_base in H2 by exact Hb. assert (N1 : pl <> start) by (intros ->; apply (P1 a H1)). assert (N2 : pl <> stop) by (intros ->; apply (P4 b H2)).
      assert (Hk : In pl (dkeys (n_places base))) by (destruct H1 as (t & Ht & _ & H); apply in_map_iff in H; destruct H as (x & <- & Hx); apply (an_arcs _ _ _ _ _ _ (proj1 A) t x Ht); auto).
      destruct (P5 pl Hk N1 N2) as (S & T & [(_ & _ & F1 & F2 & F3) _] & [Q1 Q2]). apply Q1 in H1. apply Q2 in H2. split; [auto|]. split; [apply (F2 a a H1 H1)|apply (F3 b b H2 H2)].
    - intros (H1 & H2 & H3). destruct (plus_within [a] [b]) as (S & T & M & I1 & I2).
      { split; [discriminate|]. split; [discriminate|]. split; [|split]; intros x y [<-|[]] [<-|[]]; [exact H1|split; exact H2|split; exact H3]. }
      destruct (P6 S T M) as (pl & _ & _ & _ & [Q1 Q2] & _). exists pl. rewrite feeds_base by exact Ha. rewrite drains_base by exact Hb. split; [apply Q1, I1; left; reflexivity|apply Q2, I2; left; reflexivity].
  Qed.
  Lemma plus_replayable : simple_net net /\ ids_distinct net /\ silent_ends net /\ exists start, n_initial net = Some [(start, 1)] /\ In start (dkeys (n_places base)) /\ proper [(start, 1)].
  Proof.
    destruct (wl_trans _ _ _ _ WL) as (more & E & Pm & Hm).
    split; [|split; [|split]].
    - intros t Ht. rewrite E in Ht. apply in_app_iff in Ht. destruct Ht as [Ht|Ht]; [apply (an_in_once _ _ _ _ _ _ (proj1 A) t Ht)|]. destruct (Hm t Ht) as (_ & pl & x & _ & E1 & _). rewrite E1. repeat constructor. intros [].
    - pose proof (wl_ids _ _ _ _ WL) as H. unfold all_ids in H. split; [eapply AlphaProofs4.NoDup_app_l, H|]. apply HMutProofs.NoDup_app_r in H. apply HMutProofs.NoDup_app_r in H. exact H.
    - intros m. constructor. intros m' (t & Ht & Hs & _). exfalso. rewrite E in Ht. apply in_app_iff in Ht. destruct Ht as [Ht|Ht]; [rewrite (an_loud _ _ _ _ _ _ (proj1 A) t Ht) in Hs; discriminate|]. destruct (Hm t Ht) as (X & _). congruence.
    - destruct (an_places _ _ _ _ _ _ (proj1 A)) as (start & stop & _ & Hst & _ & Hi & Hf & _). exists start. rewrite (wl_initial _ _ _ _ WL). split; [exact Hi|]. split; [apply (in_map fst) in Hst; exact Hst|]. split; [repeat constructor; intros []|].
      intros q n [H|[]]. injection H as _ <-. lia.
  Qed.
End Connected.

(** ** Names of places *)
Lemma split_at {A} (c : A) a r a' r' : ~ In c a -> ~ In c a' -> a ++ c :: r = a' ++ c :: r' -> a = a' /\ r = r'.
Proof.
  revert a'. induction a as [|x a IH]; intros [|y a'] H H' E; cbn [app] in *.
  - injection E as ->. auto.
  - injection E as -> _. exfalso. apply H'. left. reflexivity.
  - injection E as -> _. exfalso. apply H. left. reflexivity.
  - injection E as <- E. destruct (IH a') as [-> ->]; [intros X; apply H; right; exact X|intros X; apply H'; right; exact X|exact E|]. auto.
Qed.
Lemma comma_items_cons x y l : comma_items (x :: y :: l) = x ++ 44%N :: comma_items (y :: l).
Proof. reflexivity. Qed.
Lemma comma_items_inj l l' : (forall c, In c l -> plain_name c) -> (forall c, In c l' -> plain_name c) -> comma_items l = comma_items l' -> l = l'.
Proof.
  revert l'. induction l as [|x l IH]; intros [|y l'] H H' E.
  - reflexivity.
  - exfalso. destruct (H' y (or_introl eq_refl)) as [N1 _]. destruct y as [|k y]; [congruence|]. destruct l'; discriminate.
  - exfalso. destruct (H x (or_introl eq_refl)) as [N1 _]. destruct x as [|k x]; [congruence|]. destruct l; discriminate.
  - destruct (H x (or_introl eq_refl)) as (X1 & X2 & X3). destruct (H' y (or_introl eq_refl)) as (Y1 & Y2 & Y3).
    destruct l as [|x2 l], l' as [|y2 l']; [cbn [comma_items] in E; congruence| | |].
    + rewrite comma_items_cons in E. cbn [comma_items] in E. exfalso. apply X2. rewrite E. apply in_app_iff. right. left. reflexivity.
    + rewrite comma_items_cons in E. cbn [comma_items] in E. exfalso. apply Y2. rewrite <- E. apply in_app_iff. right. left. reflexivity.
    + rewrite !comma_items_cons in E. apply split_at in E; [|assumption|assumption]. destruct E as [-> E]. f_equal. apply IH; [intros c Hc; apply H; right; exact Hc|intros c Hc; apply H'; right; exact Hc|exact E].
Qed.
Lemma comma_items_plain l : (forall c, In c l -> plain_name c) -> ~ In 125%N (comma_items l).
Proof.
  induction l as [|x l IH]; intros H; [intros []|]. destruct (H x (or_introl eq_refl)) as (_ & _ & H3). destruct l as [|y l]; [exact H3|]. rewrite comma_items_cons, in_app_iff. intros [X|[X|X]]; [contradiction|discriminate|].
  revert X. apply IH. intros c Hc. apply H. right. exact Hc.
Qed.
Lemma as_string_inj x y : (forall s c, In c (sd s x) -> plain_name c) -> (forall s c, In c (sd s y) -> plain_name c) -> as_string x = as_string y -> x = y.
Proof.
  intros Hx Hy E. unfold as_string in E. change (str "({") with [40%N; 123%N] in E. change (str "}, {") with [125%N; 44%N; 32%N; 123%N] in E. change (str "})") with [125%N; 41%N] in E. cbn [app] in E. injection E as E.
  apply split_at in E; [|apply comma_items_plain, (Hx true)|apply comma_items_plain, (Hy true)]. destruct E as [E1 E2]. injection E2 as E2.
  apply split_at in E2; [|apply comma_items_plain, (Hx false)|apply comma_items_plain, (Hy false)]. destruct E2 as [E2 _].
  apply comma_items_inj in E1; [|apply (Hx true)|apply (Hy true)]. apply comma_items_inj in E2; [|apply (Hx false)|apply (Hy false)]. destruct x, y. cbn in *. congruence.
Qed.

(** ** Places nobody else feeds *)
Lemma run_dead net pl M w ids M' : (forall u, In u (n_trans net) -> In pl (map arc_place (tr_out u)) -> In pl (map arc_place (tr_in u))) ->
  M pl = 0 -> run net M w ids M' -> forall u, In u (n_trans net) -> In pl (map arc_place (tr_in u)) -> (tr_silent u = false -> (forall v, In v (n_trans net) -> tr_name v = tr_name u -> v = u) -> ~ In (tr_name u) w).
Proof.
  intros K H0 R. revert H0. induction R as [M M' E|M t M1 w ids M2 Ht Hs [F1 F2] R IH|M t M1 w ids M2 Ht Hs [F1 F2] R IH]; intros H0 u Hu Hin Hsu Huu.
  - intros [].
  - assert (Nt : ~ In pl (map arc_place (tr_in t))).
    { intros X. specialize (F1 pl). unfold needs in F1. apply (count_occ_In N.eq_dec) in X. lia. }
    assert (M1 pl = 0).
    { rewrite F2, H0. unfold gives. assert (X : ~ In pl (map arc_place (tr_out t))) by (intros X; apply Nt, K; assumption). apply (count_occ_not_In N.eq_dec) in X. rewrite X. lia. }
    intros [X|X]; [|revert X; apply IH; assumption]. apply Huu in X; [|exact Ht]. subst u. contradiction.
  - assert (Nt : ~ In pl (map arc_place (tr_in t))).
    { intros X. specialize (F1 pl). unfold needs in F1. apply (count_occ_In N.eq_dec) in X. lia. }
    apply IH; try assumption. rewrite F2, H0. unfold gives. assert (X : ~ In pl (map arc_place (tr_out t))) by (intros X; apply Nt, K; assumption). apply (count_occ_not_In N.eq_dec) in X. rewrite X. lia.
Qed.
Section Dead.
  Variable log : list (list pystr).
  Variable loops : list pystr.
  Variable base net : pnet.
  Hypothesis L : loops_of log loops.
  Hypothesis A : plus_net log loops base.
  Hypothesis WL : with_loops log loops base net.
  Hypothesis plain : forall t c, In t log -> In c t -> plain_name c.
  Variable c : pystr.
  Variable x : aset.
  Hypothesis Hc : one_loop log c.
  Hypothesis X : around log c x.
  Lemma next_plain a b : next_to log a b -> plain_name a /\ plain_name b.
  Proof. intros (l1 & l2 & H). split; apply (plain _ _ H); apply in_app_iff; right; [left|right; left]; reflexivity. Qed.
  Lemma around_plain y s d : around log c y -> In d (sd s y) -> plain_name d.
  Proof. intros (_ & H1 & H2) H. destruct s; cbn [sd] in H; [apply H1 in H|apply H2 in H]; destruct H as [_ H]; apply next_plain in H; apply H. Qed.
  Lemma around_one y : around log c y -> y = x.
  Proof. intros (T1 & H1 & H2). destruct X as (T2 & G1 & G2). apply aset_ext; [exact T1|exact T2|]. intros [] d; cbn [sd]; [rewrite H1, G1|rewrite H2, G2]; reflexivity. Qed.
  Lemma set_plain y s d : maximal (plus_causal log loops) (unrelated log (Some loops)) (as_left y) (as_right y) -> In d (sd s y) -> plain_name d.
  Proof.
    intros [(N1 & N2 & F & _) _] H.
    assert (K : forall a b, plus_causal log loops a b -> plain_name a /\ plain_name b).
    { intros a b [H1 _]. apply steps_classes in H1. destruct H1 as [H1 H2]. rewrite (occurs_kept log loops _ L) in H1. rewrite (occurs_kept log loops _ L) in H2. destruct H1 as [(t & Ht & I1) _], H2 as [(u & Hu & I2) _]. split; [apply (plain t a Ht I1)|apply (plain u b Hu I2)]. }
    destruct s; cbn [sd] in H.
    - destruct (as_right y) as [|b r]; [congruence|]. apply (K d b). apply F; [exact H|left; reflexivity].
    - destruct (as_left y) as [|a r]; [congruence|]. apply (K a d). apply F; [left; reflexivity|exact H].
  Qed.
  Lemma loop_trans : exists t place, In t (n_trans net) /\ tr_name t = c /\ tr_silent t = false /\ (forall u, In u (n_trans net) -> tr_name u = c -> u = t) /\
    map arc_place (tr_in t) = [place] /\ map arc_place (tr_out t) = [place] /\ In (place, as_string x) (n_places net).
  Proof.
    destruct (wl_trans _ _ _ _ WL) as (more & E & Pm & Hm). apply L in Hc. apply (Permutation_in _ (Permutation_sym Pm)) in Hc as Hin. apply in_map_iff in Hin. destruct Hin as (t & Ec & Ht).
    destruct (Hm t Ht) as (S1 & pl & y & Y & E1 & E2 & H). rewrite Ec in Y. apply around_one in Y. subst y. exists t, pl. split; [rewrite E; apply in_app_iff; auto|]. split; [exact Ec|]. split; [exact S1|]. split; [|auto].
    intros u Hu Eu. rewrite E in Hu. apply in_app_iff in Hu. destruct Hu as [Hu|Hu].
    - exfalso. apply (base_loud log loops base L A u Hu). rewrite Eu. exact Hc.
    - assert (NDn : NoDup (map tr_name more)) by (eapply Permutation_NoDup; [apply Permutation_sym, Pm|apply L]).
      clear - NDn Hu Ht Eu Ec. induction more as [|v more IH]; [destruct Hu|]. cbn [map] in NDn. inversion NDn as [|? ? Hn ND']; subst. destruct Hu as [->|Hu], Ht as [->|Ht]; [reflexivity| | |apply IH; assumption]; exfalso; apply Hn.
      + rewrite Eu. apply in_map, Ht.
      + rewrite <- Eu. apply in_map, Hu.
  Qed.
  Lemma loop_alive : maximal (plus_causal log loops) (unrelated log (Some loops)) (as_left x) (as_right x) ->
    exists t place, In t (n_trans net) /\ tr_name t = c /\ map arc_place (tr_in t) = [place] /\ map arc_place (tr_out t) = [place] /\
      In place (dkeys (n_places base)) /\ stands_for base place (as_left x) (as_right x).
  Proof.
    intros M. destruct loop_trans as (t & pl & Ht & Ec & S1 & U1 & E1 & E2 & H). exists t, pl. split; [exact Ht|]. split; [exact Ec|]. split; [exact E1|]. split; [exact E2|].
    destruct (wl_places _ _ _ _ WL) as (new & E & ND & Hn). rewrite E in H. apply in_app_iff in H.
    destruct (an_places _ _ _ _ _ _ (proj1 A)) as (start & stop & _ & _ & _ & Hi & Hf & P1 & P2 & P3 & P4 & P5 & P6). destruct (P6 _ _ M) as (q & Hq & Q1 & Q2 & Q3 & Q4).
    assert (Iq : In (q, as_string x) (n_places base)).
    { apply in_map_iff in Hq. destruct Hq as ([q' name] & Eq & Hq). cbn [fst] in Eq. subst q'. destruct (proj2 A q name Hq) as [[_ Y]|[[_ Y]|(y & -> & Ty & My & Sy)]]; [congruence|congruence|].
      replace x with y; [exact Hq|]. apply aset_ext; [exact Ty|apply X|]. intros [] d; cbn [sd]; [rewrite <- (proj1 Sy), (proj1 Q3)|rewrite <- (proj2 Sy), (proj2 Q3)]; reflexivity. }
    destruct H as [H|H].
    - split; [apply (in_map fst) in H; exact H|]. destruct (proj2 A pl _ H) as [[Y _]|[[Y _]|(y & Y & Ty & My & Sy)]]; [exfalso; revert Y; unfold as_string; cbn; discriminate|exfalso; revert Y; unfold as_string; cbn; discriminate|].
      apply as_string_inj in Y; [|intros s d; apply around_plain, X|intros s d; apply set_plain, My]. subst y. exact Sy.
    - exfalso. apply (in_map snd) in H. cbn [snd] in H. apply Hn in H. destruct H as [H _]. apply H. apply (in_map snd) in Iq. exact Iq.
  Qed.
  Lemma loop_dead : ~ maximal (plus_causal log loops) (unrelated log (Some loops)) (as_left x) (as_right x) ->
    exists init, n_initial net = Some init /\ forall w ids M, run net (tokens init) w ids M -> ~ In c w.
  Proof.
    intros M. destruct loop_trans as (t & pl & Ht & Ec & S1 & U1 & E1 & E2 & H). destruct (plus_replayable log loops base net A WL) as (_ & _ & _ & start & Hi & Hst & _). exists [(start, 1)]. split; [exact Hi|].
    destruct (wl_places _ _ _ _ WL) as (new & E & ND & Hn). rewrite E in H. apply in_app_iff in H. destruct H as [H|H].
    { exfalso. destruct (proj2 A pl _ H) as [[Y _]|[[Y _]|(y & Y & Ty & My & Sy)]]; [revert Y; unfold as_string; cbn; discriminate|revert Y; unfold as_string; cbn; discriminate|].
      apply as_string_inj in Y; [|intros s d; apply around_plain, X|intros s d; apply set_plain, My]. subst y. contradiction. }
    assert (Hpl : ~ In pl (dkeys (n_places base))).
    { intros Y. pose proof (wl_ids _ _ _ _ WL) as W. unfold all_ids in W. apply HMutProofs.NoDup_app_r in W. apply AlphaProofs4.NoDup_app_l in W. rewrite E in W. unfold dkeys in W. rewrite map_app in W.
      apply (HMutProofs.NoDup_app_disj _ _ _ W Y). apply (in_map fst) in H. exact H. }
    intros w ids M' R. rewrite <- Ec. apply (run_dead net pl (tokens [(start, 1)]) w ids M'); [|unfold tokens; cbn [dget]|exact R|exact Ht|rewrite E1; left; reflexivity|exact S1|].
    - intros u Hu Ho. destruct (wl_trans _ _ _ _ WL) as (more & Em & _ & Hm). rewrite Em in Hu. apply in_app_iff in Hu. destruct Hu as [Hu|Hu].
      + exfalso. apply Hpl. apply in_map_iff in Ho. destruct Ho as (a & <- & Ha). apply (an_arcs _ _ _ _ _ _ (proj1 A) u a Hu). auto.
      + destruct (Hm u Hu) as (_ & q & y & _ & Q1 & Q2 & _). rewrite Q1. rewrite Q2 in Ho. exact Ho.
    - destruct (N.eq_dec pl start) as [->|_]; [contradiction|reflexivity].
    - rewrite Ec. exact U1.
  Qed.
End Dead.
