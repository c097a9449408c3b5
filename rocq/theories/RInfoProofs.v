(** Proofs about the counts and the graph of the backend. *)
From Coq Require Import Permutation.
From Verif Require Import Py PyFacts InfoModel InfoSpec InfoProofs XesModel ReplayModel RInfoModel RInfoSpec.

(** Tables of tables which count pairs. *)
Definition pairs_inv (ps : list (pystr * pystr)) (d : dict pystr (dict pystr nat)) : Prop :=
  NoDup (dkeys d) /\ (forall a m, dget str_eq_dec d a = Some m -> NoDup (dkeys m) /\ m <> []) /\
  forall a b, entry str_eq_dec d a b = positive (count_occ pair_eq_dec ps (a, b)).

Lemma dset_not_nil {K V} (eqd : forall a b : K, {a = b} + {a <> b}) (d : dict K V) k v : dset eqd d k v <> [].
Proof. destruct d as [|[k' v'] d]; cbn; [discriminate|]. destruct (eqd k k'); discriminate. Qed.

Lemma count_snoc ps a b x : count_occ pair_eq_dec (ps ++ [x]) (a, b) = count_occ pair_eq_dec ps (a, b) + (if pair_eq_dec x (a, b) then 1 else 0).
Proof. rewrite count_occ_app. cbn. destruct (pair_eq_dec x (a, b)); lia. Qed.

Lemma update_pairs_inv ps d x y : pairs_inv ps d -> pairs_inv (ps ++ [(x, y)]) (r_update_pairs d x y).
Proof.
  intros (Hn & Hm & He). pose proof (He x y) as Exy. unfold entry in Exy.
  assert (G : forall m, NoDup (dkeys m) -> m <> [] ->
    (forall b, dget str_eq_dec m b = positive (count_occ pair_eq_dec (ps ++ [(x, y)]) (x, b))) ->
    pairs_inv (ps ++ [(x, y)]) (dset str_eq_dec d x m)).
  { intros m N1 N2 E. split; [apply dset_NoDup; exact Hn|]. split.
    - intros a m' H. rewrite dget_dset in H. destruct (str_eq_dec x a); [injection H as <-; auto|eapply Hm; eauto].
    - intros a b. unfold entry. rewrite dget_dset. destruct (str_eq_dec x a) as [<-|Hne]; [apply E|].
      fold (entry str_eq_dec d a b). rewrite He, count_snoc. destruct (pair_eq_dec (x, y) (a, b)); [congruence|]. f_equal. lia. }
  unfold r_update_pairs. destruct (dget str_eq_dec d x) as [m|] eqn:E.
  - destruct (Hm _ _ E) as [N1 N2].
    assert (Eb : forall b, dget str_eq_dec m b = positive (count_occ pair_eq_dec ps (x, b))).
    { intros b. rewrite <- He. unfold entry. rewrite E. reflexivity. }
    assert (Hc : forall v, v = S (count_occ pair_eq_dec ps (x, y)) -> pairs_inv (ps ++ [(x, y)]) (dset str_eq_dec d x (dset str_eq_dec m y v))).
    { intros v Hv. apply G; [apply dset_NoDup; exact N1|apply dset_not_nil|]. intros b. rewrite dget_dset, count_snoc.
      destruct (str_eq_dec y b) as [<-|Hne].
      - destruct (pair_eq_dec (x, y) (x, y)); [|congruence]. subst v. unfold positive. rewrite Nat.add_1_r. reflexivity.
      - rewrite Eb. destruct (pair_eq_dec (x, y) (x, b)); [congruence|]. f_equal. lia. }
    destruct (dget str_eq_dec m y) as [c|] eqn:Ey; apply Hc; rewrite Eb in Ey; unfold positive in Ey; destruct (count_occ pair_eq_dec ps (x, y)) as [|c']; cbn in Ey; try discriminate.
    + injection Ey as <-. lia.
    + reflexivity.
  - assert (E0 : forall b, count_occ pair_eq_dec ps (x, b) = 0).
    { intros b. pose proof (He x b) as H. unfold entry in H. rewrite E in H. unfold positive in H.
      destruct (count_occ pair_eq_dec ps (x, b)); [reflexivity|discriminate]. }
    apply G; [repeat constructor; intros []|discriminate|]. intros b. rewrite count_snoc, E0. cbn [dget].
    destruct (str_eq_dec b y) as [->|Hne]; destruct (pair_eq_dec (x, y) (x, _)); try congruence; reflexivity.
Qed.

Lemma fold_pairs_inv l ps d : pairs_inv ps d -> pairs_inv (ps ++ l) (fold_left (fun d p => r_update_pairs d (fst p) (snd p)) l d).
Proof.
  revert ps d. induction l as [|[x y] l IH]; intros ps d H; cbn [fold_left]; [rewrite app_nil_r; exact H|].
  change ((x, y) :: l) with ([(x, y)] ++ l). rewrite app_assoc. apply IH. apply update_pairs_inv, H.
Qed.

(** What a trace adds. *)
Definition r_add (c : rcounts) (ps : list (pystr * pystr)) (es : list pystr) : rcounts :=
  mkRCounts (fold_left (fun d p => r_update_pairs d (fst p) (snd p)) ps (rc_pairs c))
            (fold_left (increase_in_int_map str_eq_dec) es (rc_events c)) (rc_total c) (rc_starts c) (rc_ends c).
Lemma r_events_some ign fake t p c :
  r_info_events ign fake t (Some p) c = r_add c (neighbours ((p :: kept ign t) ++ (if fake then [fake_end_name] else []))) (kept ign t).
Proof.
  revert p c; induction t as [|n t IH]; intros p c.
  - cbn. destruct fake; destruct c; reflexivity.
  - cbn [r_info_events]. rewrite is_ignored_kept. destruct (is_ignored ign n); [apply IH|]. rewrite IH. destruct c. reflexivity.
Qed.
Lemma r_events_none ign fake t c :
  r_info_events ign fake t None c = r_add c (neighbours (walk fake (kept ign t))) (kept ign t).
Proof.
  revert c; induction t as [|n t IH]; intros c.
  - destruct c; reflexivity.
  - cbn [r_info_events]. rewrite is_ignored_kept. destruct (is_ignored ign n); [apply IH|]. rewrite r_events_some. unfold walk. destruct fake; destruct c; [reflexivity|].
    rewrite app_nil_r. reflexivity.
Qed.

Lemma r_log_proof ign fake log c :
  let c' := fold_left (r_info_trace ign fake) log c in
  rc_pairs c' = fold_left (fun d p => r_update_pairs d (fst p) (snd p)) (steps log ign fake) (rc_pairs c) /\
  rc_events c' = fold_left (increase_in_int_map str_eq_dec) (occurrences log ign) (rc_events c) /\
  rc_total c' = rc_total c + length (concat log) /\
  rc_starts c' = fold_left set_add (flat_map (fun t => match t with [] => [] | n :: _ => [n] end) log) (rc_starts c) /\
  rc_ends c' = fold_left set_add (flat_map (fun t => match t with [] => [] | n :: _ => [last t n] end) log) (rc_ends c).
Proof.
  cbn zeta. revert c. induction log as [|t log IH]; intros c.
  - cbn. repeat split; try reflexivity. lia.
  - cbn [fold_left]. destruct (IH (r_info_trace ign fake c t)) as (H1 & H2 & H3 & H4 & H5). rewrite H1, H2, H3, H4, H5. clear.
    unfold steps, occurrences. cbn [flat_map concat]. rewrite !fold_left_app, app_length. unfold r_info_trace.
    rewrite r_events_none. unfold r_add. cbn [rc_pairs rc_events rc_total rc_starts rc_ends].
    destruct t as [|n t]; cbn [rc_pairs rc_events rc_total rc_starts rc_ends fold_left]; repeat split; try reflexivity; cbn [length]; lia.
Qed.

Lemma set_adds_In l s y : In y (fold_left set_add l s) <-> In y l \/ In y s.
Proof.
  revert s. induction l as [|x l IH]; intros s; cbn [fold_left In]; [tauto|]. rewrite IH, set_add_In. intuition congruence.
Qed.
Lemma set_add_NoDup s x : NoDup s -> NoDup (set_add s x).
Proof.
  intros H. unfold set_add. destruct (str_mem x s) eqn:E; [exact H|]. eapply Permutation_NoDup; [apply Permutation_cons_append|].
  constructor; [|exact H]. intros Hx. apply str_mem_In in Hx. congruence.
Qed.
Lemma set_adds_NoDup l s : NoDup s -> NoDup (fold_left set_add l s).
Proof. revert s. induction l as [|x l IH]; intros s H; cbn [fold_left]; [exact H|]. apply IH, set_add_NoDup, H. Qed.

(** The loops over the pairs as one loop over the list of all pairs. *)
Definition entries (ord : nat -> forall A : Type, list A -> list A) (d : dict pystr (dict pystr nat)) : dict (pystr * pystr) nat :=
  flat_map (fun kv => map (fun sv => ((fst kv, fst sv), snd sv)) (ord 1 _ (snd kv))) (ord 0 _ d).

Lemma follow_split first g sv :
  (fst (fst (r_follow first g sv)), snd (r_follow first g sv)) = dfg_step (fst (fst g), snd g) ((first, fst sv), snd sv).
Proof.
  destruct g as [[f p] s]. destruct sv as [second count]. unfold r_follow, dfg_step. cbn [fst snd].
  destruct (dget str_eq_dec f first) as [m|]; cbn [fst snd]; [|reflexivity]. destruct (dmem str_eq_dec m second); reflexivity.
Qed.
Definition prec_step (p : dict pystr (dict pystr nat)) (kv : (pystr * pystr) * nat) : dict pystr (dict pystr nat) :=
  let '((first, second), count) := kv in
  match dget str_eq_dec p second with
  | Some m => dset str_eq_dec p second (dset str_eq_dec m first count)
  | None => dset str_eq_dec p second [(first, count)]
  end.
Lemma follow_prec first g sv : snd (fst (r_follow first g sv)) = prec_step (snd (fst g)) ((first, fst sv), snd sv).
Proof.
  destruct g as [[f p] s]. destruct sv as [second count]. unfold r_follow, prec_step. cbn [fst snd].
  destruct (dget str_eq_dec f first); reflexivity.
Qed.
Lemma fold_follow first l g :
  let g' := fold_left (r_follow first) l g in
  (fst (fst g'), snd g') = fold_left dfg_step (map (fun sv => ((first, fst sv), snd sv)) l) (fst (fst g), snd g) /\
  snd (fst g') = fold_left prec_step (map (fun sv => ((first, fst sv), snd sv)) l) (snd (fst g)).
Proof.
  cbn zeta. revert g. induction l as [|sv l IH]; intros g; cbn [fold_left map]; [split; reflexivity|].
  destruct (IH (r_follow first g sv)) as [A B]. rewrite A, B, follow_split, follow_prec. split; reflexivity.
Qed.
Lemma fold_follows (ord : nat -> forall A : Type, list A -> list A) (d : dict pystr (dict pystr nat)) g :
  let g' := fold_left (fun g kv => fold_left (r_follow (fst kv)) (ord 1 _ (snd kv)) g) d g in
  (fst (fst g'), snd g') = fold_left dfg_step (flat_map (fun kv => map (fun sv => ((fst kv, fst sv), snd sv)) (ord 1 _ (snd kv))) d) (fst (fst g), snd g) /\
  snd (fst g') = fold_left prec_step (flat_map (fun kv => map (fun sv => ((fst kv, fst sv), snd sv)) (ord 1 _ (snd kv))) d) (snd (fst g)).
Proof.
  cbn zeta. revert g. induction d as [|kv d IH]; intros g; cbn [fold_left flat_map]; [split; reflexivity|].
  rewrite !fold_left_app. destruct (IH (fold_left (r_follow (fst kv)) (ord 1 (pystr * nat)%type (snd kv)) g)) as [A B].
  destruct (fold_follow (fst kv) (ord 1 (pystr * nat)%type (snd kv)) g) as [C D].
  split; [etransitivity; [exact A|f_equal; exact C]|etransitivity; [exact B|f_equal; exact D]].
Qed.

Section Order.
  Variable ord : nat -> forall A : Type, list A -> list A.
  Hypothesis Hord : any_order ord.

  Lemma ord_In k A (l : list A) x : In x (ord k A l) <-> In x l.
  Proof. split; apply Permutation_in; [apply Hord|apply Permutation_sym, Hord]. Qed.

  Lemma make_dfg_split d :
    (rd_followed (r_make_dfg ord d), rd_single (r_make_dfg ord d)) = fold_left dfg_step (entries ord d) ([], []) /\
    rd_precedes (r_make_dfg ord d) = fold_left prec_step (entries ord d) [] /\ rd_pairs (r_make_dfg ord d) = d.
  Proof.
    unfold r_make_dfg. destruct (fold_follows ord (ord 0 _ d) ([], [], [])) as [A B].
    match type of B with snd (fst ?x) = _ => set (r := x) in * end.
    change (fold_left (fun g kv => fold_left (r_follow (fst kv)) (ord 1 _ (snd kv)) g) (ord 0 _ d) ([], [], [])) with r.
    destruct r as [[f p] s]. cbn [fst snd rd_followed rd_single rd_precedes rd_pairs] in *. rewrite A, B. split; [reflexivity|]. split; reflexivity.
  Qed.

  Lemma entries_keys_In d a b : NoDup (dkeys d) -> (In (a, b) (dkeys (entries ord d)) <-> exists m, dget str_eq_dec d a = Some m /\ In b (dkeys m)).
  Proof.
    intros Hn. unfold dkeys, entries. rewrite in_map_iff. split.
    - intros ([[a' b'] v] & E & H). cbn in E. injection E as -> ->. apply in_flat_map in H. destruct H as ([a' m] & Hk & H).
      apply in_map_iff in H. destruct H as ([b' v'] & E & H). cbn in E. injection E as -> -> ->. apply ord_In in Hk, H.
      exists m. split; [apply In_dget; assumption|]. apply in_map_iff. exists (b, v). auto.
    - intros (m & Hm & Hb). apply in_map_iff in Hb. destruct Hb as ([b' v] & E & H). cbn in E. subst b'. exists ((a, b), v). split; [reflexivity|].
      apply in_flat_map. exists (a, m). split; [apply ord_In; eapply dget_In; eauto|]. apply in_map_iff. exists (b, v). split; [reflexivity|]. apply ord_In. exact H.
  Qed.

  Lemma NoDup_app_disjoint {A} (l1 l2 : list A) : NoDup l1 -> NoDup l2 -> (forall x, In x l1 -> In x l2 -> False) -> NoDup (l1 ++ l2).
  Proof.
    induction 1 as [|x l Hx Hl IH]; intros H2 D; cbn; [exact H2|]. constructor.
    - intros H. apply in_app_or in H. destruct H as [H|H]; [contradiction|]. apply (D x); [left; reflexivity|exact H].
    - apply IH; [exact H2|]. intros y Hy. apply D. right. exact Hy.
  Qed.

  Lemma NoDup_keys_flat (d : dict pystr (dict pystr nat)) : NoDup (dkeys d) -> (forall a m, In (a, m) d -> NoDup (dkeys m)) ->
    NoDup (dkeys (flat_map (fun kv => map (fun sv => ((fst kv, fst sv), snd sv)) (ord 1 _ (snd kv))) d)).
  Proof.
    unfold dkeys. induction d as [|[a m] d IH]; intros Hn Hm; cbn [flat_map map]; [constructor|]. rewrite map_app, map_map. cbn [fst snd].
    inversion Hn as [|? ? Ha Hd]; subst. apply NoDup_app_disjoint.
    - rewrite <- (map_map fst (fun b => (a, b))). apply FinFun.Injective_map_NoDup; [intros x y E; congruence|].
      eapply Permutation_NoDup; [|apply (Hm a m); left; reflexivity]. apply Permutation_map, Permutation_sym, Hord.
    - apply IH; [exact Hd|]. intros a' m' H. apply (Hm a' m'). right. exact H.
    - intros [a' b] H1 H2. apply in_map_iff in H1. destruct H1 as (sv & E & _). injection E as <- _.
      apply in_map_iff in H2. destruct H2 as ([[a' b'] v] & E & H). cbn in E. injection E as -> ->. apply in_flat_map in H.
      destruct H as ([a' m'] & H & H'). apply in_map_iff in H'. destruct H' as (sv' & E & _). cbn in E. injection E as -> _ _.
      apply Ha. apply in_map_iff. exists (a, m'). auto.
  Qed.

  Lemma entries_facts ps d : pairs_inv ps d -> NoDup (dkeys (entries ord d)) /\
    forall a b, dget pair_eq_dec (entries ord d) (a, b) = positive (count_occ pair_eq_dec ps (a, b)).
  Proof.
    intros (Hn & Hm & He).
    assert (Hd : NoDup (dkeys (entries ord d))).
    { apply NoDup_keys_flat.
      - eapply Permutation_NoDup; [|exact Hn]. apply Permutation_map, Permutation_sym, Hord.
      - intros a m H. apply ord_In in H. apply (Hm a). apply In_dget; assumption. }
    split; [exact Hd|]. intros a b. rewrite <- He. unfold entry. destruct (dget str_eq_dec d a) as [m|] eqn:E.
    - destruct (dget str_eq_dec m b) as [v|] eqn:Eb.
      + apply In_dget; [exact Hd|]. unfold entries. apply in_flat_map. exists (a, m). split; [apply ord_In; eapply dget_In; eauto|].
        apply in_map_iff. exists (b, v). split; [reflexivity|]. apply ord_In. eapply dget_In; eauto.
      + apply dget_None. rewrite entries_keys_In by exact Hn. intros (m' & E' & H). rewrite E in E'. injection E' as <-.
        apply (dget_None str_eq_dec) in Eb. contradiction.
    - apply dget_None. rewrite entries_keys_In by exact Hn. intros (m' & E' & H). congruence.
  Qed.

  Lemma prec_inv l ps p : NoDup (dkeys (ps ++ l)) ->
    (NoDup (dkeys p) /\ (forall b m, dget str_eq_dec p b = Some m -> NoDup (dkeys m) /\ m <> []) /\
     forall a b, entry str_eq_dec p b a = dget pair_eq_dec ps (a, b)) ->
    let p' := fold_left prec_step l p in
    NoDup (dkeys p') /\ (forall b m, dget str_eq_dec p' b = Some m -> NoDup (dkeys m) /\ m <> []) /\
    forall a b, entry str_eq_dec p' b a = dget pair_eq_dec (ps ++ l) (a, b).
  Proof.
    cbn zeta. revert ps p. induction l as [|[[x y] v] l IH]; intros ps p Hn (N & M & E); cbn [fold_left]; [rewrite app_nil_r; auto|].
    change (((x, y), v) :: l) with ([((x, y), v)] ++ l) in *. rewrite app_assoc in *. apply IH; [exact Hn|].
    assert (Hnew : dget pair_eq_dec ps (x, y) = None).
    { apply dget_None. unfold dkeys in *. rewrite !map_app, <- app_assoc in Hn. cbn in Hn. apply NoDup_remove_2 in Hn.
      intros H. apply Hn, in_or_app. left. exact H. }
    assert (Hps : forall k, dget pair_eq_dec (ps ++ [((x, y), v)]) k = if pair_eq_dec k (x, y) then Some v else dget pair_eq_dec ps k).
    { intros k. rewrite dget_app. cbn. destruct (pair_eq_dec k (x, y)) as [->|Hk]; [rewrite Hnew; reflexivity|]. destruct (dget pair_eq_dec ps k); reflexivity. }
    assert (G : forall m, NoDup (dkeys m) -> m <> [] -> (forall a, dget str_eq_dec m a = dget pair_eq_dec (ps ++ [((x, y), v)]) (a, y)) ->
      NoDup (dkeys (dset str_eq_dec p y m)) /\ (forall b m', dget str_eq_dec (dset str_eq_dec p y m) b = Some m' -> NoDup (dkeys m') /\ m' <> []) /\
      forall a b, entry str_eq_dec (dset str_eq_dec p y m) b a = dget pair_eq_dec (ps ++ [((x, y), v)]) (a, b)).
    { intros m N1 N2 Em. split; [apply dset_NoDup; exact N|]. split.
      - intros b m' H. rewrite dget_dset in H. destruct (str_eq_dec y b); [injection H as <-; auto|eapply M; eauto].
      - intros a b. unfold entry. rewrite dget_dset. destruct (str_eq_dec y b) as [<-|Hne]; [apply Em|].
        fold (entry str_eq_dec p b a). rewrite E, Hps. destruct (pair_eq_dec (a, b) (x, y)); [congruence|reflexivity]. }
    unfold prec_step. destruct (dget str_eq_dec p y) as [m|] eqn:Ey.
    - destruct (M _ _ Ey) as [N1 N2]. apply G; [apply dset_NoDup; exact N1|apply dset_not_nil|]. intros a. rewrite dget_dset, Hps.
      destruct (str_eq_dec x a) as [<-|Hne].
      + destruct (pair_eq_dec (x, y) (x, y)); congruence.
      + destruct (pair_eq_dec (a, y) (x, y)); [congruence|]. rewrite <- E. unfold entry. rewrite Ey. reflexivity.
    - apply G; [repeat constructor; intros []|discriminate|]. intros a. rewrite Hps. cbn [dget]. destruct (str_eq_dec a x) as [->|Hne].
      + destruct (pair_eq_dec (x, y) (x, y)); congruence.
      + destruct (pair_eq_dec (a, y) (x, y)); [congruence|]. rewrite <- E. unfold entry. rewrite Ey. reflexivity.
  Qed.

  Variable log : names_log.
  Variable fake : bool.
  Variable ign : option (list pystr).
  Let info := r_create_from ord log fake ign.

  Lemma info_pairs_inv : pairs_inv (steps log ign fake) (rd_pairs (ri_dfg info)).
  Proof.
    unfold info, r_create_from. cbn [ri_dfg]. destruct (make_dfg_split (rc_pairs (fold_left (r_info_trace ign fake) log (mkRCounts [] [] 0 [] [])))) as (_ & _ & ->).
    destruct (r_log_proof ign fake log (mkRCounts [] [] 0 [] [])) as (-> & _). cbn [rc_pairs]. apply (fold_pairs_inv _ []).
    split; [constructor|]. split; [discriminate|]. reflexivity.
  Qed.
  Lemma info_classes : ri_classes info = counter str_eq_dec (occurrences log ign).
  Proof. unfold info, r_create_from. cbn [ri_classes]. destruct (r_log_proof ign fake log (mkRCounts [] [] 0 [] [])) as (_ & -> & _). reflexivity. Qed.

  Lemma count_zero_In x : count_occ pair_eq_dec (steps log ign fake) x = 0 <-> ~ In x (steps log ign fake).
  Proof. symmetry. apply count_occ_not_In. Qed.

  Lemma counts_proof :
    (forall n, r_event_count info n = count_occ str_eq_dec (occurrences log ign) n) /\
    (forall k, NoDup (r_all_event_classes ord k info) /\ forall n, In n (r_all_event_classes ord k info) <-> In n (occurrences log ign)) /\
    (forall a b, r_directly_follows_count (ri_dfg info) a b = count_occ pair_eq_dec (steps log ign fake) (a, b)) /\
    (forall a b, r_directly_follows (ri_dfg info) a b = true <-> In (a, b) (steps log ign fake)) /\
    ri_traces_count info = length log /\ ri_events_count info = length (concat log).
  Proof.
    destruct info_pairs_inv as (Hn & Hm & He).
    split; [|split; [|split; [|split; [|split]]]].
    - intros n. unfold r_event_count. rewrite info_classes, counter_get. destruct (count_occ _ _ _ =? 0) eqn:E; [|reflexivity]. apply Nat.eqb_eq in E. auto.
    - intros k. unfold r_all_event_classes. rewrite info_classes. split.
      + eapply Permutation_NoDup; [apply Permutation_sym, Hord|]. apply counter_NoDup.
      + intros n. rewrite ord_In. apply counter_keys.
    - intros a b. specialize (He a b). unfold entry in He. unfold r_directly_follows_count. unfold positive in He.
      destruct (dget str_eq_dec (rd_pairs (ri_dfg info)) a) as [m|]; [destruct (dget str_eq_dec m b) as [c|]|]; destruct (count_occ pair_eq_dec _ _) as [|c']; cbn in He; congruence.
    - intros a b. specialize (He a b). unfold entry in He. unfold r_directly_follows, dmem. rewrite (count_occ_In pair_eq_dec). unfold positive in He.
      destruct (dget str_eq_dec (rd_pairs (ri_dfg info)) a) as [m|]; [destruct (dget str_eq_dec m b) as [c|]|]; destruct (count_occ pair_eq_dec _ _) as [|c']; cbn in He; try discriminate; split; intros; try discriminate; try lia; reflexivity.
    - reflexivity.
    - unfold info, r_create_from. cbn [ri_events_count]. destruct (r_log_proof ign fake log (mkRCounts [] [] 0 [] [])) as (_ & _ & -> & _). reflexivity.
  Qed.

  Lemma followers_proof :
    (forall a b, match r_followed (ri_dfg info) a with Some m => dget str_eq_dec m b | None => None end
       = positive (count_occ pair_eq_dec (steps log ign fake) (a, b))) /\
    (forall a b, match r_precedes (ri_dfg info) b with Some m => dget str_eq_dec m a | None => None end
       = positive (count_occ pair_eq_dec (steps log ign fake) (a, b))) /\
    (forall a m, r_followed (ri_dfg info) a = Some m \/ r_precedes (ri_dfg info) a = Some m -> NoDup (dkeys m) /\ m <> []) /\
    (forall a, r_single_follower (ri_dfg info) a = true <->
       exists b, In (a, b) (steps log ign fake) /\ forall b', In (a, b') (steps log ign fake) -> b' = b).
  Proof.
    pose proof info_pairs_inv as Hp. destruct (entries_facts _ _ Hp) as [Hn He].
    set (d := rd_pairs (ri_dfg info)) in *.
    assert (Ed : ri_dfg info = r_make_dfg ord d).
    { unfold d, info, r_create_from. cbn [ri_dfg]. destruct (make_dfg_split (rc_pairs (fold_left (r_info_trace ign fake) log (mkRCounts [] [] 0 [] [])))) as (_ & _ & ->). reflexivity. }
    destruct (make_dfg_split d) as (A & B & _). rewrite <- Ed in A, B.
    pose proof (dfg_fold_inv (entries ord d) [] ([], []) Hn dfg_inv_init) as I. rewrite <- A in I. destruct I as (I1 & I2 & I3). cbn [app fst snd] in I1, I2, I3.
    destruct (prec_inv (entries ord d) [] [] Hn) as (P1 & P2 & P3).
    { split; [constructor|]. split; [discriminate|reflexivity]. }
    rewrite <- B in P1, P2, P3. cbn [app] in P3.
    split; [|split; [|split]].
    - intros a b. rewrite <- He. unfold r_followed. destruct (dget str_eq_dec (rd_followed (ri_dfg info)) a) as [m|] eqn:E; [apply (I1 _ _ E)|symmetry; apply (I2 _ E)].
    - intros a b. rewrite <- He. apply P3.
    - intros a m [H|H]; [destruct (I1 _ _ H) as (_ & X & Y); auto|apply (P2 _ _ H)].
    - intros a. unfold r_single_follower. rewrite str_mem_In, I3.
      assert (Hm : forall b, dmem pair_eq_dec (entries ord d) (a, b) = true <-> In (a, b) (steps log ign fake)).
      { intros b. unfold dmem. rewrite He. unfold positive. rewrite (count_occ_In pair_eq_dec). destruct (count_occ _ _ _); cbn; split; intros; try discriminate; try lia; reflexivity. }
      split; intros (b & H1 & H2); exists b; (split; [apply Hm; exact H1|]); intros b' Hb'; apply H2, Hm, Hb'.
  Qed.

  Lemma starts_proof :
    NoDup (ri_starts info) /\ NoDup (ri_ends info) /\
    (forall n, In n (ri_starts info) <-> begins_trace log n) /\ (forall n, In n (ri_ends info) <-> ends_trace log n).
  Proof.
    unfold info, r_create_from. cbn [ri_starts ri_ends]. destruct (r_log_proof ign fake log (mkRCounts [] [] 0 [] [])) as (_ & _ & _ & -> & ->). cbn [rc_starts rc_ends].
    split; [apply set_adds_NoDup; constructor|]. split; [apply set_adds_NoDup; constructor|]. split; intros n; rewrite set_adds_In.
    - unfold begins_trace. split.
      + intros [H|[]]. apply in_flat_map in H. destruct H as ([|m t] & Ht & H); [destruct H|]. destruct H as [<-|[]]. exists t. exact Ht.
      + intros [t Ht]. left. apply in_flat_map. exists (n :: t). split; [exact Ht|left; reflexivity].
    - unfold ends_trace. split.
      + intros [H|[]]. apply in_flat_map in H. destruct H as (t & Ht & H). destruct t as [|m t]; [destruct H|]. destruct H as [<-|[]].
        exists (removelast (m :: t)). rewrite <- app_removelast_last by discriminate. exact Ht.
      + intros [t Ht]. left. apply in_flat_map. exists (t ++ [n]). split; [exact Ht|]. destruct t as [|m t]; cbn [app]; [left; reflexivity|].
        left. change (m :: t ++ [n]) with ((m :: t) ++ [n]). apply last_last.
  Qed.

  Lemma same_proof : let li := create_log_information log ign fake in
    ri_classes info = li_events_count li /\
    (forall a b, entry str_eq_dec (rd_pairs (ri_dfg info)) a b = dget pair_eq_dec (d_pairs (li_dfg li)) (a, b)) /\
    (forall a b, entry str_eq_dec (rd_followed (ri_dfg info)) a b = entry str_eq_dec (d_followed (li_dfg li)) a b) /\
    (forall a, In a (rd_single (ri_dfg info)) <-> In a (d_single (li_dfg li))).
  Proof.
    cbn zeta. destruct followers_proof as (F1 & _ & _ & F4). destruct info_pairs_inv as (_ & _ & He). destruct (dfg_followers_proof log ign fake) as (G1 & _ & G3).
    split; [rewrite info_classes, info_eq; reflexivity|].
    assert (E : forall a b, dget pair_eq_dec (d_pairs (li_dfg (create_log_information log ign fake))) (a, b) = positive (count_occ pair_eq_dec (steps log ign fake) (a, b))).
    { intros a b. apply pairs_exact_proof. }
    split; [intros a b; rewrite E; apply He|]. split.
    - intros a b. unfold entry at 2. rewrite G1, E. apply F1.
    - intros a. rewrite G3, <- F4. unfold r_single_follower. rewrite str_mem_In. tauto.
  Qed.
End Order.

(** Connecting and disconnecting. *)
Lemma connect_entry g a b d x y :
  entry N.eq_dec (rg_connections (rg_connect g a b d)) x y =
  if N.eqb x a && N.eqb y b && negb (rg_connected g a b) && (dmem N.eq_dec (rg_nodes g) a && dmem N.eq_dec (rg_nodes g) b)
  then Some d else entry N.eq_dec (rg_connections g) x y.
Proof.
  unfold rg_connect. destruct (rg_connected g a b) eqn:Ec; [rewrite !andb_false_r; reflexivity|]. rewrite andb_true_r.
  destruct (dmem N.eq_dec (rg_nodes g) a && dmem N.eq_dec (rg_nodes g) b); [|rewrite andb_false_r; reflexivity]. rewrite andb_true_r.
  destruct (dget N.eq_dec (rg_connections g) a) as [c|] eqn:E; cbn [rg_connections]; unfold entry; rewrite dget_dset.
  - destruct (N.eq_dec a x) as [<-|Hx].
    + rewrite E, N.eqb_refl, dget_dset. cbn [andb]. destruct (N.eq_dec b y) as [<-|Hy]; [rewrite N.eqb_refl; reflexivity|].
      destruct (N.eqb_spec y b); [congruence|reflexivity].
    + destruct (N.eqb_spec x a); [congruence|reflexivity].
  - destruct (N.eq_dec a x) as [<-|Hx].
    + rewrite E, N.eqb_refl. cbn [dget andb]. destruct (N.eq_dec y b) as [<-|Hy]; [rewrite N.eqb_refl; reflexivity|].
      destruct (N.eqb_spec y b); [congruence|reflexivity].
    + destruct (N.eqb_spec x a); [congruence|reflexivity].
Qed.
Lemma connect_tidy g a b d : graph_tidy g -> graph_tidy (rg_connect g a b d) /\ rg_nodes (rg_connect g a b d) = rg_nodes g.
Proof.
  intros [H1 H2]. unfold rg_connect. destruct (rg_connected g a b); [split; [split; assumption|reflexivity]|].
  destruct (_ && _); [|split; [split; assumption|reflexivity]].
  destruct (dget N.eq_dec (rg_connections g) a) as [c|] eqn:E; (split; [split|reflexivity]); cbn [rg_connections]; try (apply dset_NoDup; assumption);
    intros a' c' H; rewrite dget_dset in H; destruct (N.eq_dec a a'); try (eapply H2; eassumption); injection H as <-.
  - apply dset_NoDup. eapply H2; eauto.
  - repeat constructor; intros [].
Qed.
Lemma disconnect_entry g a b x y : graph_tidy g ->
  entry N.eq_dec (rg_connections (fst (rg_disconnect g a b))) x y = (if N.eqb x a && N.eqb y b then None else entry N.eq_dec (rg_connections g) x y) /\
  snd (rg_disconnect g a b) = rg_connected g a b.
Proof.
  intros [H1 H2]. unfold rg_disconnect, rg_connected. destruct (dget N.eq_dec (rg_connections g) a) as [c|] eqn:E; cbn [fst snd rg_connections]; (split; [|reflexivity]).
  - unfold entry. rewrite dget_dset. destruct (N.eq_dec a x) as [<-|Hx].
    + rewrite E, N.eqb_refl. cbn [andb]. rewrite dget_ddel by (eapply H2; eauto). destruct (N.eq_dec b y) as [<-|Hy]; [rewrite N.eqb_refl; reflexivity|]. destruct (N.eqb_spec y b); [congruence|reflexivity].
    + destruct (N.eqb_spec x a); [congruence|reflexivity].
  - destruct (N.eqb_spec x a) as [->|Hx]; [|reflexivity]. unfold entry. rewrite E. destruct (N.eqb y b); reflexivity.
Qed.
Lemma all_edges_In g x y d : graph_tidy g -> (In (x, y, d) (rg_all_edges g) <-> entry N.eq_dec (rg_connections g) x y = Some d).
Proof.
  intros [H1 H2]. unfold rg_all_edges, entry. rewrite in_flat_map. split.
  - intros ([x' c] & Hc & H). apply in_map_iff in H. destruct H as ([y' d'] & E & H). cbn in E, H. injection E as -> -> ->.
    assert (Hx : dget N.eq_dec (rg_connections g) x = Some c) by (apply In_dget; assumption). rewrite Hx. apply In_dget; [eapply H2; eauto|exact H].
  - destruct (dget N.eq_dec (rg_connections g) x) as [c|] eqn:E; [|discriminate]. intros Ed. exists (x, c). split; [eapply dget_In; eauto|].
    apply in_map_iff. exists (y, d). split; [reflexivity|]. eapply dget_In; eauto.
Qed.
Lemma all_edges_once g : graph_tidy g -> NoDup (map fst (rg_all_edges g)).
Proof.
  intros [H1 H2]. unfold rg_all_edges.
  assert (G : forall l : dict N (dict N (option pystr)), NoDup (dkeys l) -> (forall a c, In (a, c) l -> NoDup (dkeys c)) ->
    NoDup (map fst (flat_map (fun kv => map (fun sv => (fst kv, fst sv, snd sv)) (snd kv)) l))).
  { unfold dkeys. induction l as [|[a c] l IH]; intros Hn Hc; cbn [flat_map map]; [constructor|]. rewrite map_app, map_map. cbn [fst snd].
    inversion Hn as [|? ? Ha Hl]; subst. apply NoDup_app_disjoint.
    - rewrite <- (map_map fst (fun b => (a, b))). apply FinFun.Injective_map_NoDup; [intros u v E; congruence|]. apply (Hc a c). left. reflexivity.
    - apply IH; [exact Hl|]. intros a' c' H. apply (Hc a' c'). right. exact H.
    - intros [a' b] K1 K2. apply in_map_iff in K1. destruct K1 as (sv & E & _). injection E as <- _.
      apply in_map_iff in K2. destruct K2 as ([[a' b'] v] & E & H). cbn in E. injection E as -> ->. apply in_flat_map in H.
      destruct H as ([a' m'] & H & H'). apply in_map_iff in H'. destruct H' as (sv' & E & _). cbn in E. injection E as -> _ _.
      apply Ha. apply in_map_iff. exists (a, m'). auto. }
  apply G; [exact H1|]. intros a c H. apply (H2 a). apply In_dget; assumption.
Qed.

Lemma outgoing_In g x y : (In y (rg_outgoing g x) <-> rg_connected g x y = true).
Proof.
  unfold rg_outgoing, rg_connected. destruct (dget N.eq_dec (rg_connections g) x) as [c|]; [|split; [intros []|discriminate]]. rewrite dmem_In. tauto.
Qed.
Lemma incoming_In g x y : graph_tidy g -> (In x (rg_incoming g y) <-> rg_connected g x y = true).
Proof.
  intros [H1 _]. unfold rg_incoming, rg_connected. rewrite in_map_iff. split.
  - intros ([x' c] & E & H). cbn in E. subst x'. apply filter_In in H. destruct H as [H Hm]. cbn in Hm. assert (Hx : dget N.eq_dec (rg_connections g) x = Some c) by (apply In_dget; assumption). rewrite Hx. exact Hm.
  - destruct (dget N.eq_dec (rg_connections g) x) as [c|] eqn:E; [|discriminate]. intros Hm. exists (x, c). split; [reflexivity|]. apply filter_In. split; [eapply dget_In; eauto|exact Hm].
Qed.

(** The nodes of the graph. *)
Definition nodes_inv (g : rgraph) (next : N) (ids : dict pystr N) : Prop :=
  NoDup (dkeys (rg_nodes g)) /\ (forall id, In id (dkeys (rg_nodes g)) -> (id < next)%N) /\ rg_connections g = [] /\
  (forall c id, dget str_eq_dec ids c = Some id <-> dget N.eq_dec (rg_nodes g) id = Some (Some c)) /\
  (forall id o, dget N.eq_dec (rg_nodes g) id = Some o -> exists c, o = Some c).
Lemma nodes_loop cs : forall g next ids, nodes_inv g next ids -> NoDup cs -> (forall c, In c cs -> dget str_eq_dec ids c = None) ->
  let '(g', next', ids') := fold_left (fun '(g, next, ids) class =>
      let '(g, next, id) := rg_add_node g next (Some class) in (g, next, dset str_eq_dec ids class id)) cs (g, next, ids) in
  nodes_inv g' next' ids' /\ forall c, (exists id, dget str_eq_dec ids' c = Some id) <-> In c cs \/ exists id, dget str_eq_dec ids c = Some id.
Proof.
  induction cs as [|c cs IH]; intros g next ids Hi Hn Hf; cbn [fold_left].
  - split; [exact Hi|]. intros c. cbn. tauto.
  - inversion Hn as [|? ? Hc Hn']; subst. cbn [rg_add_node].
    set (g1 := mkRGraph (dset N.eq_dec (rg_nodes g) next (Some c)) (rg_connections g)). set (ids1 := dset str_eq_dec ids c next).
    assert (Hi1 : nodes_inv g1 (N.succ next) ids1).
    { destruct Hi as (A & B & C & D & E). unfold g1, ids1. split; [apply dset_NoDup; exact A|]. cbn [rg_nodes rg_connections].
      assert (Hnext : dget N.eq_dec (rg_nodes g) next = None). { apply dget_None. intros H. apply B in H. lia. }
      split; [intros id H; apply dset_In_keys in H; destruct H as [->|H]; [lia|apply B in H; lia]|]. split; [exact C|]. split.
      - intros c' id. rewrite !dget_dset. destruct (str_eq_dec c c') as [<-|Hne]; destruct (N.eq_dec next id) as [<-|Hid].
        + tauto.
        + split; [congruence|]. intros H. apply D in H. rewrite (Hf c) in H by (left; reflexivity). discriminate.
        + split; [|congruence]. intros H. apply D in H. congruence.
        + apply D.
      - intros id o. rewrite dget_dset. destruct (N.eq_dec next id); [intros H; injection H as <-; eauto|apply E]. }
    assert (Hf1 : forall c', In c' cs -> dget str_eq_dec ids1 c' = None).
    { intros c' H. unfold ids1. rewrite dget_dset. destruct (str_eq_dec c c'); [congruence|]. apply Hf. right. exact H. }
    specialize (IH _ _ _ Hi1 Hn' Hf1).
    destruct (fold_left _ cs (g1, N.succ next, ids1)) as [[g' next'] ids']. destruct IH as [I1 I2]. split; [exact I1|].
    intros c'. rewrite I2. unfold ids1. split.
    + intros [H|[id H]]; [left; right; exact H|]. rewrite dget_dset in H. destruct (str_eq_dec c c') as [<-|]; [left; left; reflexivity|right; eauto].
    + intros [[<-|H]|[id H]]; [right; exists next; rewrite dget_dset; destruct (str_eq_dec c c); congruence|left; exact H|].
      right. rewrite dget_dset. destruct (str_eq_dec c c'); eauto.
Qed.

(** The edges made so far. *)
Definition npair_eq_dec (a b : N * N) : {a = b} + {a <> b}.
Proof. decide equality; apply N.eq_dec. Defined.
Definition edges_inv (nodes : dict N (option pystr)) (done : dict (N * N) (option pystr)) (g : rgraph) : Prop :=
  graph_tidy g /\ rg_nodes g = nodes /\ forall x y, entry N.eq_dec (rg_connections g) x y = dget npair_eq_dec done (x, y).
Lemma edges_step nodes done g x y d : edges_inv nodes done g -> dmem N.eq_dec nodes x = true -> dmem N.eq_dec nodes y = true ->
  edges_inv nodes (done ++ [((x, y), d)]) (rg_connect g x y d).
Proof.
  intros (T & En & E) Hx Hy. destruct (connect_tidy g x y d T) as [T' N']. split; [exact T'|]. split; [congruence|].
  intros u v. rewrite connect_entry, En, Hx, Hy, dget_app, <- E. cbn [dget andb].
  assert (Hc : rg_connected g u v = match entry N.eq_dec (rg_connections g) u v with Some _ => true | None => false end).
  { unfold rg_connected, entry, dmem. destruct (dget N.eq_dec (rg_connections g) u); reflexivity. }
  rewrite andb_true_r. destruct (npair_eq_dec (u, v) (x, y)) as [Euv|Huv].
  - injection Euv as -> ->. rewrite !N.eqb_refl. cbn [andb]. rewrite Hc. destruct (entry _ _ x y); reflexivity.
  - assert (Hf : N.eqb u x && N.eqb v y = false). { apply andb_false_iff. destruct (N.eqb_spec u x), (N.eqb_spec v y); auto; congruence. }
    rewrite Hf. destruct (entry _ _ u v); reflexivity.
Qed.
Definition edge_label (c : nat) : option pystr := Some (show_int (Z.of_nat c)).

Lemma class_edges_loop nodes ids a x l : forall done g, edges_inv nodes done g -> dget str_eq_dec ids a = Some x -> dmem N.eq_dec nodes x = true ->
  (forall b c, In (b, c) l -> exists y, dget str_eq_dec ids b = Some y /\ dmem N.eq_dec nodes y = true) ->
  exists g' done', loopM (r_dfg_edges ids a) l g = Ok g' /\ edges_inv nodes (done ++ done') g' /\
    forall u v d, In ((u, v), d) done' <-> u = x /\ exists b c, In (b, c) l /\ dget str_eq_dec ids b = Some v /\ d = edge_label c.
Proof.
  induction l as [|[b c] l IH]; intros done g Hi Ha Hx Hl.
  - exists g, []. split; [reflexivity|]. rewrite app_nil_r. split; [exact Hi|]. intros u v d. cbn. split; [intros []|]. intros (_ & b & c & [] & _).
  - destruct (Hl b c) as (y & Eb & Hy); [left; reflexivity|].
    assert (Es : r_dfg_edges ids a g (b, c) = Ok (rg_connect g x y (edge_label c))).
    { unfold r_dfg_edges. rewrite Ha. cbn [fst snd]. rewrite Eb. reflexivity. }
    rewrite loopM_cons, Es. cbn [bind].
    destruct (IH _ _ (edges_step _ _ _ _ _ (edge_label c) Hi Hx Hy) Ha Hx) as (g' & done' & Eg & Hi' & Hd).
    { intros b' c' H. apply (Hl b' c'). right. exact H. }
    exists g', (((x, y), edge_label c) :: done'). split; [exact Eg|]. rewrite <- app_assoc in Hi'. split; [exact Hi'|].
    intros u v d. cbn [In]. rewrite Hd. split.
    + intros [E|(Hu & b' & c' & H & H')].
      * injection E as <- <- <-. split; [reflexivity|]. exists b, c. auto.
      * split; [exact Hu|]. exists b', c'. auto.
    + intros (Hu & b' & c' & [E|H] & Ev & Ed); [injection E as <- <-; left; rewrite Hu, Ed; congruence|]. right. split; [exact Hu|]. exists b', c'. auto.
Qed.

Lemma neighbours_In {A} (x y : A) l : In (x, y) (neighbours l) -> In x l /\ In y l.
Proof.
  unfold neighbours. intros H. split; [eapply in_combine_l; eauto|]. apply in_combine_r in H. destruct l; [destruct H|right; exact H].
Qed.
Lemma steps_classes log ign a b : In (a, b) (steps log ign false) -> In a (occurrences log ign) /\ In b (occurrences log ign).
Proof.
  unfold steps, occurrences. rewrite !in_flat_map. intros (t & Ht & H).
  assert (E : walk false (kept ign t) = kept ign t) by (unfold walk; destruct (kept ign t); reflexivity). rewrite E in H. apply neighbours_In in H. destruct H. split; exists t; auto.
Qed.

Section GraphProof.
  Variable ord : nat -> forall A : Type, list A -> list A.
  Hypothesis Hord : any_order ord.

  Lemma graph_edges_loop nodes ids dfg cs : forall done g, edges_inv nodes done g ->
    (forall a, In a cs -> exists x, dget str_eq_dec ids a = Some x /\ dmem N.eq_dec nodes x = true) ->
    (forall a m b c, In a cs -> r_followed dfg a = Some m -> In (b, c) m -> exists y, dget str_eq_dec ids b = Some y /\ dmem N.eq_dec nodes y = true) ->
    exists g' done',
      loopM (fun g class => match r_followed dfg class with Some followers => loopM (r_dfg_edges ids class) (ord 4 _ followers) g | None => Ok g end) cs g = Ok g' /\
      edges_inv nodes (done ++ done') g' /\
      forall u v d, In ((u, v), d) done' <-> exists a b c m, In a cs /\ r_followed dfg a = Some m /\ In (b, c) m /\
        dget str_eq_dec ids a = Some u /\ dget str_eq_dec ids b = Some v /\ d = edge_label c.
  Proof.
    induction cs as [|a cs IH]; intros done g Hi Ha Hf.
    - exists g, []. split; [reflexivity|]. rewrite app_nil_r. split; [exact Hi|]. intros u v d. split; [intros []|]. intros (a & b & c & m & [] & _).
    - destruct (Ha a) as (x & Ex & Hx); [left; reflexivity|]. rewrite loopM_cons.
      assert (G : exists g1 done1, match r_followed dfg a with Some followers => loopM (r_dfg_edges ids a) (ord 4 _ followers) g | None => Ok g end = Ok g1 /\
        edges_inv nodes (done ++ done1) g1 /\
        forall u v d, In ((u, v), d) done1 <-> u = x /\ exists b c m, r_followed dfg a = Some m /\ In (b, c) m /\ dget str_eq_dec ids b = Some v /\ d = edge_label c).
      { destruct (r_followed dfg a) as [m|] eqn:Em.
        - destruct (class_edges_loop nodes ids a x (ord 4 _ m) done g Hi Ex Hx) as (g1 & done1 & E1 & I1 & D1).
          { intros b c H. apply (ord_In ord Hord) in H. apply (Hf a m b c); [left; reflexivity|exact Em|exact H]. }
          exists g1, done1. split; [exact E1|]. split; [exact I1|]. intros u v d. rewrite D1. split.
          + intros (Hu & b & c & H & Ev & Ed). apply (ord_In ord Hord) in H. split; [exact Hu|]. exists b, c, m. auto.
          + intros (Hu & b & c & m' & E & H & Ev & Ed). injection E as <-. split; [exact Hu|]. exists b, c. split; [apply (ord_In ord Hord); exact H|auto].
        - exists g, []. split; [reflexivity|]. rewrite app_nil_r. split; [exact Hi|]. intros u v d. split; [intros []|]. intros (_ & b & c & m' & E & _). discriminate. }
      destruct G as (g1 & done1 & E1 & I1 & D1). rewrite E1. cbn [bind].
      destruct (IH _ _ I1) as (g' & done' & E' & I' & D').
      { intros a' H. apply Ha. right. exact H. }
      { intros a' m b c H. apply Hf. right. exact H. }
      exists g', (done1 ++ done'). split; [exact E'|]. rewrite app_assoc. split; [exact I'|]. intros u v d. rewrite in_app_iff, D1, D'. split.
      + intros [(-> & b & c & m & H1 & H2 & H3 & H4)|(a' & b & c & m & H & H')].
        * exists a, b, c, m. split; [left; reflexivity|]. auto.
        * exists a', b, c, m. split; [right; exact H|exact H'].
      + intros (a' & b & c & m & [<-|H] & H1 & H2 & H3 & H4).
        * left. split; [congruence|]. exists b, c, m. auto.
        * right. exists a', b, c, m. auto.
  Qed.

  Lemma graph_proof log ign next : let info := r_create_from ord log false ign in
    exists g next', r_construct_dfg ord info next = Ok (g, next') /\
    NoDup (dkeys (rg_nodes g)) /\
    (forall id o, In (id, o) (rg_nodes g) -> exists c, o = Some c) /\
    (forall c, In c (occurrences log ign) <-> exists id, In (id, Some c) (rg_nodes g)) /\
    (forall c id id', In (id, Some c) (rg_nodes g) -> In (id', Some c) (rg_nodes g) -> id = id') /\
    NoDup (map fst (rg_all_edges g)) /\
    (forall x y d, In (x, y, d) (rg_all_edges g) <->
       exists a b, In (x, Some a) (rg_nodes g) /\ In (y, Some b) (rg_nodes g) /\ In (a, b) (steps log ign false) /\
         d = Some (show_int (Z.of_nat (count_occ pair_eq_dec (steps log ign false) (a, b))))).
  Proof.
    cbn zeta. set (info := r_create_from ord log false ign).
    destruct (counts_proof ord Hord log false ign) as (_ & Hcl & _). fold info in Hcl.
    destruct (followers_proof ord Hord log false ign) as (Hf & _ & Hm & _). fold info in Hf, Hm.
    unfold r_construct_dfg. destruct (Hcl 2) as [Hn2 H2]. destruct (Hcl 3) as [Hn3 H3].
    pose proof (nodes_loop (r_all_event_classes ord 2 info) rg_empty next []) as L.
    match type of L with _ -> _ -> _ -> match ?x with _ => _ end =>
      match goal with |- context [fold_left ?f (r_all_event_classes ord 2 info) ?i] => change (fold_left f (r_all_event_classes ord 2 info) i) with x end;
      destruct x as [[g0 next0] ids] end.
    assert (L0 : nodes_inv g0 next0 ids /\ forall c, (exists id, dget str_eq_dec ids c = Some id) <-> In c (r_all_event_classes ord 2 info) \/ (exists id, dget str_eq_dec (@nil (pystr * N)) c = Some id)).
    { apply L; [|exact Hn2|reflexivity]. split; [constructor|]. split; [intros ? []|]. split; [reflexivity|]. split; [|discriminate]. split; discriminate. }
    clear L. destruct L0 as [(N1 & N2 & N3 & N4 & N5) Hids].
    assert (Hid : forall c, In c (occurrences log ign) <-> exists id, dget str_eq_dec ids c = Some id).
    { intros c. rewrite Hids, H2. split; [auto|]. intros [H|[id H]]; [exact H|discriminate]. }
    assert (Hok : forall c, In c (occurrences log ign) -> exists x, dget str_eq_dec ids c = Some x /\ dmem N.eq_dec (rg_nodes g0) x = true).
    { intros c Hc. apply Hid in Hc. destruct Hc as [x Hx]. exists x. split; [exact Hx|]. unfold dmem. apply N4 in Hx. rewrite Hx. reflexivity. }
    assert (Hst : forall a m b c, r_followed (ri_dfg info) a = Some m -> In (b, c) m -> In (a, b) (steps log ign false) /\ c = count_occ pair_eq_dec (steps log ign false) (a, b)).
    { intros a m b c Em Hb. destruct (Hm a m) as [Hnm _]; [left; exact Em|]. specialize (Hf a b). rewrite Em in Hf. rewrite (In_dget str_eq_dec m b c Hnm Hb) in Hf.
      unfold positive in Hf. rewrite (count_occ_In pair_eq_dec). destruct (count_occ _ _ _); [discriminate|]. cbn in Hf. injection Hf as ->. split; [lia|reflexivity]. }
    destruct (graph_edges_loop (rg_nodes g0) ids (ri_dfg info) (r_all_event_classes ord 3 info) [] g0) as (g & done & Eg & (T & En & Ee) & Hd).
    { split; [|split; [reflexivity|]].
      - split; rewrite N3; [constructor|discriminate].
      - intros x y. rewrite N3. reflexivity. }
    { intros a Ha. apply Hok, H3, Ha. }
    { intros a m b c Ha Em Hb. apply Hok. destruct (Hst _ _ _ _ Em Hb) as [Hs _]. apply (steps_classes _ _ _ _ Hs). }
    rewrite Eg. cbn [bind]. exists g, next0. split; [reflexivity|]. rewrite En. cbn [app] in Ee.
    assert (HIn : forall id o, In (id, o) (rg_nodes g0) <-> dget N.eq_dec (rg_nodes g0) id = Some o).
    { intros id o. split; [apply In_dget; exact N1|apply dget_In]. }
    split; [exact N1|]. split; [intros id o H; apply HIn in H; apply (N5 _ _ H)|]. split.
    { intros c. rewrite Hid. split; intros [id H]; exists id; [apply HIn, N4, H|apply N4, HIn, H]. }
    split. { intros c id id' A B. apply HIn, N4 in A. apply HIn, N4 in B. congruence. }
    split; [apply all_edges_once; exact T|]. intros x y d. rewrite (all_edges_In _ _ _ _ T), Ee.
    assert (Hdone : forall d', In ((x, y), d') done <-> exists a b, In (x, Some a) (rg_nodes g0) /\ In (y, Some b) (rg_nodes g0) /\ In (a, b) (steps log ign false) /\
      d' = Some (show_int (Z.of_nat (count_occ pair_eq_dec (steps log ign false) (a, b))))).
    { intros d'. rewrite Hd. split.
      - intros (a & b & c & m & Ha & Em & Hb & Ea & Eb & ->). destruct (Hst _ _ _ _ Em Hb) as [Hs ->]. exists a, b.
        split; [apply HIn, N4, Ea|]. split; [apply HIn, N4, Eb|]. split; [exact Hs|reflexivity].
      - intros (a & b & Ha & Hb & Hs & ->). apply HIn, N4 in Ha. apply HIn, N4 in Hb. pose proof (Hf a b) as E. destruct (steps_classes _ _ _ _ Hs) as [Hoa _].
        apply (count_occ_In pair_eq_dec) in Hs. unfold positive in E. destruct (count_occ pair_eq_dec (steps log ign false) (a, b)) as [|n] eqn:En'; [lia|]. cbn [Nat.eqb] in E.
        destruct (r_followed (ri_dfg info) a) as [m|] eqn:Em; [|discriminate E]. exists a, b, (S n), m. split; [apply H3; exact Hoa|]. split; [exact Em|].
        split; [apply (dget_In str_eq_dec); exact E|]. auto. }
    rewrite <- Hdone. split; [apply dget_In|]. intros H.
    destruct (dget npair_eq_dec done (x, y)) as [d'|] eqn:E; [|apply (dget_None npair_eq_dec) in E; exfalso; apply E; apply in_map_iff; exists ((x, y), d); auto].
    apply dget_In in E. apply Hdone in E, H. destruct E as (a & b & A1 & A2 & _ & ->), H as (a' & b' & A3 & A4 & _ & ->).
    apply HIn in A1, A2, A3, A4. rewrite A1 in A3. rewrite A2 in A4. injection A3 as <-. injection A4 as <-. reflexivity.
  Qed.
End GraphProof.
