(** Lemmas about discovery on several levels. *)
From Coq Require Import Permutation Sorted.
From Verif Require Import Py PyFacts XesModel LogModel HashModel PatternModel PatternSpec RepeatProofs EqProofs TreeModel TreeSpec TreeProofs ActModel ActSpec ActProofs
  ActLogModel ActLogSpec ActLogProofs SplitModel SplitProofs InfoModel HighModel HighSpec HighProofs.

Lemma Forall2_nth {A B} (R : A -> B -> Prop) l m : Forall2 R l m -> forall i x, nth_error l i = Some x -> exists y, nth_error m i = Some y /\ R x y.
Proof.
  induction 1 as [|a b l m H _ IH]; intros [|i] x E; try discriminate; cbn in E |- *; [injection E as <-; eauto|apply IH; exact E].
Qed.
Lemma Forall2_size {A B} (R : A -> B -> Prop) l m : Forall2 R l m -> length l = length m.
Proof. induction 1; cbn; congruence. Qed.
Lemma Forall2_from_nth {A B} (R : A -> B -> Prop) : forall l m, length l = length m ->
  (forall i x y, nth_error l i = Some x -> nth_error m i = Some y -> R x y) -> Forall2 R l m.
Proof.
  induction l as [|a l IH]; intros [|b m] Hl H; try discriminate; constructor; [apply (H 0); reflexivity|].
  apply IH; [injection Hl as ->; reflexivity|]. intros i x y Hx Hy. apply (H (S i)); assumption.
Qed.

Section Levels.
  Variable uuids : nat -> pystr.
  Variable source : list (list N) -> list (list sub_array).

  Lemma hashes_at ce l hs i t : hashes_traces ce l = Ok hs -> nth_error (l_traces l) i = Some t ->
    exists cs, mapM ce (t_events t) = Ok cs /\ nth_error hs i = Some (map string_poly_hash cs).
  Proof.
    unfold hashes_traces. intros H E. apply mapM_ok_inv in H. destruct (Forall2_nth _ _ _ H _ _ E) as [h [E1 E2]].
    unfold do_create_hashes in E2. apply bind_ok in E2. destruct E2 as [cs [E2 E3]]. injection E3 as <-. eauto.
  Qed.
  Lemma piece_map {A B} (f : A -> B) l a n : piece (map f l) a n = map f (piece l a n).
  Proof. unfold piece. rewrite skipn_map, firstn_map. reflexivity. Qed.

  Lemma node_stands ce level l hs i r n : hashes_traces ce l = Ok hs -> activity_node ce level l hs i r = Ok n ->
    nd_level (rn_data n) = level /\ nd_id (rn_data n) = i /\ nd_repeat_set (rn_data n) = r /\ nd_unique (rn_data n) = unique_name i /\
    forall c, stands_for ce l (ANode (rn_data n) (rn_set n) c).
  Proof.
    intros Hh H. unfold activity_node in H. apply bind_ok in H. destruct H as [es [H1 H]]. apply bind_ok in H. destruct H as [nm [H2 H]].
    injection H as <-. cbn. repeat (split; [reflexivity|]). intros c.
    unfold activity_name in H2. destruct (nth_error (l_traces l) (rs_trace_index r)) as [t|] eqn:Et; [|discriminate].
    apply bind_ok in H2. destruct H2 as [names [H2 H3]]. injection H3 as <-.
    destruct (hashes_at _ _ _ _ _ Hh Et) as [cs [E1 E2]].
    unfold extract_set_events in H1. rewrite E2 in H1. injection H1 as <-.
    assert (En : names = piece cs (rs_first_pos r) (rs_length r)).
    { assert (E : mapM ce (slice_of (t_events t) (rs_first_pos r) (rs_first_pos r + rs_length r)) = Ok (piece cs (rs_first_pos r) (rs_length r))).
      { rewrite slice_of_piece. unfold piece. apply mapM_firstn, mapM_skipn, E1. }
      rewrite E in H2. injection H2 as ->. reflexivity. }
    exists t, cs, (sort_strs (nodup str_eq_dec names)). cbn [an_data an_set nd_repeat_set nd_name].
    split; [exact Et|]. split; [exact E1|]. split.
    { intros h. rewrite in_sorted_set. change (slice (map string_poly_hash cs) (rs_first_pos r) (rs_length r)) with (piece (map string_poly_hash cs) (rs_first_pos r) (rs_length r)).
      rewrite piece_map. reflexivity. }
    split; [eapply Permutation_NoDup; [apply sort_strs_perm|apply NoDup_nodup]|].
    split; [apply sort_strs_sorted|]. split; [|reflexivity].
    intros s. rewrite <- En, <- (nodup_In str_eq_dec names s). split; apply Permutation_in; [apply Permutation_sym|]; apply sort_strs_perm.
  Qed.
  Lemma nodes_stand ce level l hs : hashes_traces ce l = Ok hs -> forall rs i ns, activity_nodes ce level l hs i rs = Ok ns ->
    map (fun n => nd_id (rn_data n)) ns = map (fun k => (i + N.of_nat k)%N) (seq 0 (length rs)) /\
    map (fun n => nd_repeat_set (rn_data n)) ns = rs /\
    forall n, In n ns -> nd_level (rn_data n) = level /\ nd_unique (rn_data n) = unique_name (nd_id (rn_data n)) /\
      forall c, stands_for ce l (ANode (rn_data n) (rn_set n) c).
  Proof.
    intros Hh. induction rs as [|r rs IH]; cbn [activity_nodes]; intros i ns H.
    - injection H as <-. split; [reflexivity|]. split; [reflexivity|]. intros n [].
    - apply bind_ok in H. destruct H as [n [H1 H]]. apply bind_ok in H. destruct H as [ns' [H2 H]]. injection H as <-.
      destruct (node_stands _ _ _ _ _ _ _ Hh H1) as [N1 [N2 [N3 [N4 N5]]]]. destruct (IH _ _ H2) as [I1 [I2 I3]].
      split; [|split].
      + cbn [map length seq]. rewrite I1, N2. f_equal; [lia|]. rewrite <- seq_shift, map_map. apply map_ext. intros k. lia.
      + cbn [map]. rewrite I2, N3. reflexivity.
      + intros m [<-|Hm]; [|apply I3; exact Hm]. rewrite N2. auto.
  Qed.

  Lemma tree_stands ce level l rs g F g' : activities_tree ce level l rs g = Ok (F, g') ->
    g_index g' = (g_index g + N.of_nat (length rs))%N /\ g_uuid g' = g_uuid g /\ NoDup (map (fun n => nd_id (an_data n)) (everywhere F)) /\
    Permutation (map (fun n => nd_repeat_set (an_data n)) (everywhere F)) rs /\
    (forall n, In n (everywhere F) -> nd_level (an_data n) = level /\ numbered (g_index g) (g_index g') n /\ stands_for ce l n).
  Proof.
    unfold activities_tree. intros H. apply bind_ok in H. destruct H as [hs [H1 H]]. apply bind_ok in H. destruct H as [ns [H2 H]]. injection H as <- <-.
    cbn [g_index g_uuid]. split; [reflexivity|]. split; [reflexivity|].
    destruct (nodes_stand _ _ _ _ H1 _ _ _ H2) as [I1 [I2 I3]].
    pose proof (tree_sources_proof ns) as P. change (flat_map nodes_of (build_repeat_set_tree ns)) with (everywhere (build_repeat_set_tree ns)) in P.
    set (E := everywhere (build_repeat_set_tree ns)) in *.
    assert (P1 := Permutation_map (fun p => nd_id (fst p)) P). rewrite !map_map in P1. cbn in P1.
    assert (P2 := Permutation_map (fun p => nd_repeat_set (fst p)) P). rewrite !map_map in P2. cbn in P2. rewrite I2 in P2.
    assert (K : map (fun n => nd_id (an_data n)) E = map (fun x => nd_id (fst (TreeSpec.source x))) E) by reflexivity.
    split; [|split].
    - eapply Permutation_NoDup; [apply Permutation_sym; exact P1|]. rewrite I1. apply FinFun.Injective_map_NoDup; [|apply seq_NoDup]. intros x y Hxy. lia.
    - exact P2.
    - intros n Hn. assert (Hs : In (TreeSpec.source n) (map TreeSpec.source E)) by (apply in_map; exact Hn).
      eapply Permutation_in in Hs; [|exact P]. apply in_map_iff in Hs. destruct Hs as [m [Hm1 Hm2]]. destruct n as [d s ch].
      unfold TreeSpec.source in Hm1. cbn in Hm1. injection Hm1 as Ed Es. destruct (I3 _ Hm2) as [J1 [J2 J3]]. rewrite Ed, Es in J3. rewrite Ed in J1, J2. cbn [an_data].
      split; [exact J1|]. split; [|apply J3]. split; [|exact J2].
      assert (Hi : In (nd_id d) (map (fun k => (g_index g + N.of_nat k)%N) (seq 0 (length rs)))) by (rewrite <- I1, <- Ed; apply (in_map (fun n => nd_id (rn_data n))); exact Hm2).
      apply in_map_iff in Hi. destruct Hi as [k [Ek Hk]]. apply in_seq in Hk. cbn [an_data]. lia.
  Qed.

  Definition temporary (strat : discovery) (l : eventlog) (g : globals) : eventlog :=
    match strat with FromAllTraces => l | FromSingleMergedTrace => fst (merged_log uuids l g) end.
  Lemma from_patterns_stand strat ce level c g c' g' l : c_log c = Some l -> discover_from_patterns uuids source strat ce level c g = Ok (c', g') ->
    exists F, c_activities c' = Some F /\ (g_index g <= g_index g')%N /\ NoDup (map (fun n => nd_id (an_data n)) (everywhere F)) /\
      forall n, In n (everywhere F) -> nd_level (an_data n) = level /\ numbered (g_index g) (g_index g') n /\ stands_for ce (temporary strat l g) n.
  Proof.
    intros El H. unfold discover_from_patterns in H. apply bind_ok in H. destruct H as [temp [H0 H]].
    assert (Ht : c_log (fst temp) = Some (temporary strat l g) /\ g_index (snd temp) = g_index g).
    { destruct strat; [injection H0 as <-; auto|]. rewrite El in H0. cbn in H0. injection H0 as <-. split; reflexivity. }
    destruct Ht as [Ht1 Ht2].
    apply bind_ok in H. destruct H as [t1 [H1 H]]. apply bind_ok in H. destruct H as [t2 [H2 H]].
    apply bind_ok in H. destruct H as [t3 [H3 H]]. apply bind_ok in H. destruct H as [F [H4 H]]. apply bind_ok in H. destruct H as [pats [H5 H]]. injection H as <- <-.
    unfold discover_patterns in H1. rewrite Ht1 in H1. cbn [entry bind] in H1. apply bind_ok in H1. destruct H1 as [hs [_ H1]]. injection H1 as <-.
    unfold discover_repeat_sets in H2. cbn [with_patterns c_log] in H2. rewrite Ht1 in H2. cbn [entry bind c_patterns] in H2. apply bind_ok in H2. destruct H2 as [ps [_ H2]]. apply bind_ok in H2. destruct H2 as [hs' [_ H2]]. injection H2 as <-.
    unfold discover_activities in H3. cbn [with_repeat_sets c_log] in H3. cbn [with_patterns c_log] in H3. rewrite Ht1 in H3. cbn [entry bind c_repeat_sets] in H3.
    apply bind_ok in H3. destruct H3 as [rs [_ H3]]. apply bind_ok in H3. destruct H3 as [r [H3 E]]. injection E as <-. destruct r as [F' gf]. cbn [fst snd] in *. cbn in H4. injection H4 as <-.
    destruct (tree_stands _ _ _ _ _ _ _ H3) as [T1 [T2 [T3 [T4 T5]]]]. exists F'. cbn. split; [reflexivity|]. rewrite Ht2 in T1.
    split; [rewrite T1; lia|]. split; [exact T3|]. intros n Hn. rewrite <- Ht2. apply T5. exact Hn.
  Qed.

  Variables (strat : discovery) (minimum : nat) (mode : adjusting) (accept : inst -> bool) (narrow : bool).

  Lemma classifies_mapM l ce t : classifies l ce -> In t (l_traces l) -> exists cs, mapM ce (t_events t) = Ok cs.
  Proof.
    intros H Ht. assert (G : forall es, (forall e, In e es -> exists s, ce e = Ok s) -> exists cs, mapM ce es = Ok cs).
    { induction es as [|e es IH]; intros He; [exists []; reflexivity|]. destruct (He e (or_introl eq_refl)) as [s Es].
      destruct IH as [cs Ecs]; [intros; apply He; right; assumption|]. exists (s :: cs). cbn. rewrite Es. cbn. rewrite Ecs. reflexivity. }
    apply G. intros e He. apply (H t e Ht He).
  Qed.
  (** The log activities are looked for in. *)
  Definition searched (l : eventlog) (before : list (list inst)) : eventlog :=
    match mode with FromUnattachedSubTraces => create_unattached_events_log l before | FromAllLog => l end.

  Lemma adjust_spec ce level c g c' g' l before : c_log c = Some l -> instances_in c l before ->
    Forall2 (fun a t => ordered 0 (length (t_events t)) a) before (l_traces l) -> classifies l ce ->
    adjust uuids source ce level strat minimum mode accept narrow c g = Ok (c', g') ->
    exists F found, c_log c' = Some l /\ c_activities c' = Some (activities_in c ++ F) /\ c_instances c' = Some found /\
      length found = length (l_traces l) /\
      (forall i t b, nth_error (l_traces l) i = Some t -> nth_error before i = Some b ->
         exists f, nth_error found i = Some f /\ add_unattached_trace (activities_in c ++ F) ce accept minimum narrow b t = Ok f) /\
      (g_index g <= g_index g')%N /\ NoDup (map (fun n => nd_id (an_data n)) (everywhere F)) /\
      forall n, In n (everywhere F) -> nd_level (an_data n) = level /\ numbered (g_index g) (g_index g') n /\
        stands_for ce (temporary strat (searched l before) g) n.
  Proof.
    intros El Hi Ho Hce H. unfold adjust in H. apply bind_ok in H. destruct H as [c1 [H1 H]].
    assert (Hc : c_log c1 = Some l /\ c_instances c1 = Some before /\ c_activities c1 = c_activities c).
    { destruct Hi as [Hi|[Hi ->]]; rewrite Hi in H1; [injection H1 as <-; auto|]. rewrite El in H1. cbn in H1. injection H1 as <-. auto. }
    destruct Hc as [C1 [C2 C3]]. rewrite C1, C2 in H. cbn [entry bind] in H.
    apply bind_ok in H. destruct H as [out [H2 H]]. destruct out as [co go]. cbn [fst snd] in H.
    fold (searched l before) in H2.
    destruct (from_patterns_stand strat ce level (with_log new_context (searched l before)) g co go (searched l before) eq_refl H2) as [F [F1 [F2 [F3 F4]]]].
    rewrite F1 in H. cbn [entry bind with_activities c_activities] in H.
    apply bind_ok in H. destruct H as [found [H3 H]]. injection H as <- <-.
    exists F, found. cbn. rewrite C3 in *. fold (activities_in c) in *. split; [exact C1|]. split; [reflexivity|]. split; [reflexivity|].
    unfold add_unattached_activities, zip in H3. apply mapM_ok_inv in H3.
    assert (Hl : length before = length (l_traces l)) by (eapply Forall2_size; exact Ho).
    split; [apply Forall2_size in H3; rewrite combine_length in H3; lia|].
    split; [|split; [exact F2|split; [exact F3|exact F4]]].
    intros i t b Et Eb. assert (Ec : nth_error (combine before (l_traces l)) i = Some (b, t)).
    { clear -Et Eb. revert Et Eb. generalize (l_traces l). revert i. induction before as [|b0 bs IH]; intros [|i] [|t0 ts] Et Eb; try discriminate; cbn in *.
      - congruence. - apply IH; assumption. }
    destruct (Forall2_nth _ _ _ H3 _ _ Ec) as [f [Ef Hf]]. exists f. split; [exact Ef|exact Hf].
  Qed.

  Notation found_with := (found_with narrow).

  Lemma piece_piece {A} (l : list A) a n s k : s + k <= n -> piece (piece l a n) s k = piece l (a + s) k.
  Proof.
    intros H. unfold piece. rewrite skipn_firstn_comm, firstn_firstn. rewrite Nat.min_l by lia. f_equal.
    clear H. revert l. induction a as [|a IH]; intros l; [reflexivity|]. destruct l; [destruct s; reflexivity|]. apply IH.
  Qed.
  Lemma trace_found nodes ce t b f cs : mapM ce (t_events t) = Ok cs -> ordered 0 (length (t_events t)) b ->
    add_unattached_trace nodes ce accept minimum narrow b t = Ok f ->
    ordered 0 (length (t_events t)) f /\ subseq b f /\ forall x, In x f -> In x b \/ found_with ce nodes t x.
  Proof.
    intros Hcs Ho H. destruct (add_unattached_proof nodes ce accept minimum narrow b t cs Ho Hcs) as (r & E & R1 & R2 & R3).
    rewrite E in H. injection H as ->. split; [exact R1|]. split; [exact R2|]. intros x Hx. apply R3 in Hx. destruct Hx as [Hx|Hx]; [left; exact Hx|right].
    destruct Hx as (p & q & ys & y & [G1 [G2 _]] & Hm & Hx & Hy & ->).
    destruct (contents_proof _ _ _ _ _ _ Hx _ Hy) as [K1 [a [K2 [K3 K4]]]].
    pose proof (mapM_length _ _ _ Hcs) as Hlen.
    destruct (extraction_ordered_proof nd_name nodes narrow accept (piece (map string_poly_hash cs) p (q - p))) as [ys' [Ey Hord]].
    rewrite Hx in Ey. injection Ey as <-. destruct (ordered_within _ _ _ Hord) as [W _]. destruct (W _ Hy) as [W1 [W2 W3]].
    assert (Hp : length (piece (map string_poly_hash cs) p (q - p)) = q - p) by (unfold piece; rewrite firstn_length, skipn_length, map_length; lia). rewrite Hp in W3. unfold in_end in W3.
    split.
    - exists cs. split; [exact Hcs|]. cbn [shift in_start in_length in_node]. rewrite <- piece_map.
      rewrite <- (piece_piece _ p (q - p)) by lia. exact K1.
    - exists a. split; [exact K2|]. exact K4.
  Qed.

  Lemma subseq_refl {A} (l : list A) : subseq l l.
  Proof. induction l; constructor; assumption. Qed.
  Lemma subseq_trans {A} (a b c : list A) : subseq a b -> subseq b c -> subseq a c.
  Proof.
    intros H1 H2. revert a H1. induction H2 as [|x b c H IH|x b c H IH]; intros a H1.
    - exact H1.
    - inversion H1; subst; [apply ss_keep|apply ss_skip]; apply IH; assumption.
    - apply ss_skip. apply IH. exact H1.
  Qed.

  Lemma adjust_found ce level c g c' g' l before : c_log c = Some l -> instances_in c l before ->
    Forall2 (fun a t => ordered 0 (length (t_events t)) a) before (l_traces l) -> classifies l ce ->
    adjust uuids source ce level strat minimum mode accept narrow c g = Ok (c', g') ->
    exists F found, c_log c' = Some l /\ c_activities c' = Some (activities_in c ++ F) /\ c_instances c' = Some found /\
      Forall2 (fun a t => ordered 0 (length (t_events t)) a) found (l_traces l) /\
      (forall i t b f, nth_error (l_traces l) i = Some t -> nth_error before i = Some b -> nth_error found i = Some f ->
         subseq b f /\ forall x, In x f -> In x b \/ found_with ce (activities_in c ++ F) t x) /\
      (g_index g <= g_index g')%N /\ NoDup (map (fun n => nd_id (an_data n)) (everywhere F)) /\
      forall n, In n (everywhere F) -> nd_level (an_data n) = level /\ numbered (g_index g) (g_index g') n /\
        stands_for ce (temporary strat (searched l before) g) n.
  Proof.
    intros El Hi Ho Hce H. destruct (adjust_spec _ _ _ _ _ _ _ _ El Hi Ho Hce H) as [F [found [A1 [A2 [A3 [A4 [A5 [A6 [A7 A8]]]]]]]]].
    exists F, found. split; [exact A1|]. split; [exact A2|]. split; [exact A3|].
    assert (Hone : forall i t b f, nth_error (l_traces l) i = Some t -> nth_error before i = Some b -> nth_error found i = Some f ->
      ordered 0 (length (t_events t)) f /\ subseq b f /\ forall x, In x f -> In x b \/ found_with ce (activities_in c ++ F) t x).
    { intros i t b f Et Eb Ef. destruct (A5 _ _ _ Et Eb) as [f' [Ef' Hf]]. rewrite Ef in Ef'. injection Ef' as <-.
      destruct (Forall2_nth _ _ _ Ho _ _ Eb) as [t' [Et' Hob]]. rewrite Et in Et'. injection Et' as <-.
      destruct (classifies_mapM _ _ t Hce (nth_error_In _ _ Et)) as [cs Hcs]. exact (trace_found _ _ _ _ _ _ Hcs Hob Hf). }
    split.
    - apply Forall2_from_nth; [exact A4|]. intros i f t Ef Et.
      assert (Hb : exists b, nth_error before i = Some b).
      { destruct (nth_error before i) as [b|] eqn:Eb; [eauto|]. apply nth_error_None in Eb. pose proof (Forall2_size _ _ _ Ho).
        assert (i < length (l_traces l)) by (apply nth_error_Some; congruence). lia. }
      destruct Hb as [b Eb]. apply (Hone i t b f Et Eb Ef).
    - split; [|split; [exact A6|split; [exact A7|exact A8]]]. intros i t b f Et Eb Ef. apply (Hone i t b f Et Eb Ef).
  Qed.

  Lemma found_with_more ce acts more t x : found_with ce acts t x -> found_with ce (acts ++ more) t x.
  Proof. intros [H [a [H1 H2]]]. split; [exact H|]. exists a. split; [apply in_or_app; left; exact H1|exact H2]. Qed.

  Lemma levels_found : forall extractors level c g c' g' l before, c_log c = Some l -> instances_in c l before ->
    Forall2 (fun a t => ordered 0 (length (t_events t)) a) before (l_traces l) -> (forall ce, In ce extractors -> classifies l ce) ->
    several_levels uuids source strat minimum mode accept narrow extractors level c g = Ok (c', g') ->
    exists new found, c_log c' = Some l /\ activities_in c' = activities_in c ++ new /\ instances_in c' l found /\
      (extractors <> [] -> c_activities c' = Some (activities_in c ++ new) /\ c_instances c' = Some found) /\
      Forall2 (fun a t => ordered 0 (length (t_events t)) a) found (l_traces l) /\
      (forall i t b f, nth_error (l_traces l) i = Some t -> nth_error before i = Some b -> nth_error found i = Some f ->
         subseq b f /\ forall x, In x f -> In x b \/ exists ce, In ce extractors /\ found_with ce (activities_in c ++ new) t x) /\
      (g_index g <= g_index g')%N /\ NoDup (map (fun n => nd_id (an_data n)) (everywhere new)) /\
      forall n, In n (everywhere new) -> numbered (g_index g) (g_index g') n /\
        exists k ce g0 before0, nth_error extractors k = Some ce /\ nd_level (an_data n) = (level + Z.of_nat k)%Z /\
          stands_for ce (temporary strat (searched l before0) g0) n.
  Proof.
    induction extractors as [|ce rest IH]; cbn [several_levels]; intros level c g c' g' l before El Hi Ho Hce H.
    - injection H as <- <-. exists [], before. rewrite app_nil_r. split; [exact El|]. split; [reflexivity|]. split; [exact Hi|].
      split; [congruence|]. split; [exact Ho|]. split.
      { intros i t b f Et Eb Ef. rewrite Eb in Ef. injection Ef as <-. split; [apply subseq_refl|]. auto. }
      split; [lia|]. split; [constructor|]. intros n [].
    - apply bind_ok in H. destruct H as [[c1 g1] [H1 H]]. cbn [fst snd] in H.
      destruct (adjust_found _ _ _ _ _ _ _ _ El Hi Ho (Hce ce (or_introl eq_refl)) H1) as [F [mid [A1 [A2 [A3 [A4 [A5 [A6 [A7 A8]]]]]]]]].
      destruct (IH _ _ _ _ _ _ _ A1 (or_introl A3) A4 (fun x Hx => Hce x (or_intror Hx)) H)
        as [new [found [B1 [B2 [B3 [B4 [B5 [B6 [B7 [B8 B9]]]]]]]]]].
      assert (Ea : activities_in c1 = activities_in c ++ F) by (unfold activities_in at 1; rewrite A2; reflexivity).
      rewrite Ea in *. rewrite <- app_assoc in *. exists (F ++ new), found.
      split; [exact B1|]. split; [exact B2|]. split; [exact B3|]. split.
      { intros _. destruct rest as [|ce' rest'].
        - cbn in H. injection H as <- <-. unfold activities_in in B2. rewrite A2 in B2. split; [rewrite A2; f_equal; exact B2|].
          destruct B3 as [B3|[B3 _]]; [exact B3|]. rewrite A3 in B3. discriminate.
        - apply B4. discriminate. }
      split; [exact B5|]. split.
      { intros i t b f Et Eb Ef.
        assert (Hm : exists m, nth_error mid i = Some m).
        { destruct (nth_error mid i) as [m|] eqn:Em; [eauto|]. apply nth_error_None in Em. pose proof (Forall2_size _ _ _ A4).
          assert (i < length (l_traces l)) by (apply nth_error_Some; congruence). lia. }
        destruct Hm as [m Em]. destruct (A5 _ _ _ _ Et Eb Em) as [S1 S2]. destruct (B6 _ _ _ _ Et Em Ef) as [S3 S4].
        split; [eapply subseq_trans; eassumption|]. intros x Hx. destruct (S4 x Hx) as [Hx1|[e [He Hf]]].
        - destruct (S2 x Hx1) as [Hx2|Hx2]; [left; exact Hx2|right]. exists ce. split; [left; reflexivity|]. rewrite app_assoc. apply found_with_more. exact Hx2.
        - right. exists e. split; [right; exact He|exact Hf]. }
      split; [lia|]. unfold everywhere in *. rewrite flat_map_app. split.
      { rewrite map_app. apply SplitProofs.NoDup_app; [exact A7|exact B8|]. intros x Hx Hy.
        apply in_map_iff in Hx. destruct Hx as [n [<- Hn]]. apply in_map_iff in Hy. destruct Hy as [m [Em Hm]].
        destruct (A8 n Hn) as [_ [[N1 _] _]]. destruct (B9 m Hm) as [[N2 _] _]. lia. }
      intros n Hn. apply in_app_or in Hn. destruct Hn as [Hn|Hn].
      + destruct (A8 n Hn) as [L1 [[N1 N2] S1]]. split; [split; [lia|exact N2]|]. exists 0, ce, g, before.
        split; [reflexivity|]. split; [rewrite L1; lia|exact S1].
      + destruct (B9 n Hn) as [[N1 N2] [k [e [g0 [b0 [K1 [K2 K3]]]]]]]. split; [split; [lia|exact N2]|]. exists (S k), e, g0, b0.
        split; [exact K1|]. split; [rewrite K2; lia|exact K3].
  Qed.
End Levels.

Lemma visits_around n : forall (l : list inst) lo j, ordered lo n l -> lo <= j < n -> ~ covered l j ->
  exists a b, In (Gap a b) (process_trace_activities lo n l) /\ a <= j < b.
Proof.
  induction l as [|x r IH]; intros lo j Ho Hj Hc; cbn [process_trace_activities].
  - replace (lo <? n) with true by (symmetry; apply Nat.ltb_lt; lia). exists lo, n. split; [left; reflexivity|lia].
  - cbn [ordered] in Ho. destruct Ho as [H1 [H2 H3]]. destruct (Nat.lt_ge_cases j (in_start x)) as [Hlt|Hge].
    + replace (lo <? in_start x) with true by (symmetry; apply Nat.ltb_lt; lia). exists lo, (in_start x). split; [left; reflexivity|lia].
    + assert (Hend : in_end x <= j).
      { destruct (Nat.le_gt_cases (in_end x) j) as [H|H]; [exact H|]. exfalso. apply Hc. exists x. split; [left; reflexivity|lia]. }
      destruct (IH (in_end x) j H3 ltac:(lia)) as [a [b [G1 G2]]].
      { intros [y [Hy1 Hy2]]. apply Hc. exists y. split; [right; exact Hy1|exact Hy2]. }
      exists a, b. split; [|exact G2]. apply in_or_app. right. right. exact G1.
Qed.
Lemma gap_around (l : list inst) n j : ordered 0 n l -> j < n -> ~ covered l j -> exists a b, gap l n a b /\ a <= j < b.
Proof.
  intros Ho Hj Hc. destruct (visits_around n l 0 j Ho ltac:(lia) Hc) as [a [b [G1 G2]]]. exists a, b. split; [apply gaps_proof; assumption|exact G2].
Qed.
Lemma covered_subseq (l m : list inst) j : subseq l m -> covered l j -> covered m j.
Proof.
  intros H [x [Hx Hj]]. exists x. split; [|exact Hj]. revert Hx. induction H as [|y l m _ IH|y l m _ IH]; intros Hx; [exact Hx| |right; apply IH; exact Hx].
  destruct Hx as [->|Hx]; [left; reflexivity|right; apply IH; exact Hx].
Qed.

Lemma levels_app uuids source strat minimum mode accept narrow : forall pre last level c g,
  several_levels uuids source strat minimum mode accept narrow (pre ++ [last]) level c g =
  bind (several_levels uuids source strat minimum mode accept narrow pre level c g) (fun r =>
    adjust uuids source last (level + Z.of_nat (length pre)) strat minimum mode accept narrow (fst r) (snd r)).
Proof.
  induction pre as [|e pre IH]; intros last level c g; cbn [app several_levels length].
  - cbn. rewrite Z.add_0_r. destruct (adjust _ _ _ _ _ _ _ _ _ _) as [[c1 g1]|]; reflexivity.
  - destruct (adjust _ _ _ _ _ _ _ _ _ _) as [[c1 g1]|]; cbn [bind fst snd]; [|reflexivity]. rewrite IH.
    f_equal. replace (level + 1 + Z.of_nat (length pre))%Z with (level + Z.of_nat (S (length pre)))%Z by lia. reflexivity.
Qed.

Lemma levels_covered uuids source strat minimum mode narrow pre last level c g c' g' l before : minimum <= 1 ->
  c_log c = Some l -> instances_in c l before ->
  Forall2 (fun a t => ordered 0 (length (t_events t)) a) before (l_traces l) -> (forall ce, In ce (pre ++ [last]) -> classifies l ce) ->
  several_levels uuids source strat minimum mode (fun _ => true) narrow (pre ++ [last]) level c g = Ok (c', g') ->
  forall found i t f j e s, c_instances c' = Some found -> nth_error (l_traces l) i = Some t -> nth_error found i = Some f ->
    nth_error (t_events t) j = Some e -> last e = Ok s -> ~ covered f j ->
    forall a, In a (activities_in c') -> ~ In (string_poly_hash s) (an_set a).
Proof.
  intros Hmin El Hi Ho Hce H found i t f j e s Ef Et Ei Ee Es Hc a Ha Hs. rewrite levels_app in H. apply bind_ok in H. destruct H as [[c1 g1] [H1 H2]]. cbn [fst snd] in H2.
  destruct (levels_found uuids source strat minimum mode (fun _ => true) narrow pre level c g c1 g1 l before El Hi Ho
              (fun x Hx => Hce x (in_or_app _ _ _ (or_introl Hx))) H1) as [new [mid [A1 [A2 [A3 [_ [A5 _]]]]]]].
  assert (Hl : classifies l last) by (apply Hce; apply in_or_app; right; left; reflexivity).
  destruct (adjust_spec uuids source strat minimum mode (fun _ => true) narrow _ _ _ _ _ _ _ _ A1 A3 A5 Hl H2) as [F [found' [B1 [B2 [B3 [B4 [B5 _]]]]]]].
  rewrite Ef in B3. injection B3 as <-.
  assert (Hm : exists m, nth_error mid i = Some m).
  { destruct (nth_error mid i) as [m|] eqn:Em; [eauto|]. apply nth_error_None in Em. pose proof (Forall2_size _ _ _ A5).
    assert (i < length (l_traces l)) by (apply nth_error_Some; congruence). lia. }
  destruct Hm as [m Em]. destruct (B5 _ _ _ Et Em) as [f' [Ef' Hf]]. rewrite Ei in Ef'. injection Ef' as <-.
  destruct (Forall2_nth _ _ _ A5 _ _ Em) as [t' [Et' Hom]]. rewrite Et in Et'. injection Et' as <-.
  destruct (classifies_mapM _ _ t Hl (nth_error_In _ _ Et)) as [cs Hcs].
  assert (Ej : nth_error cs j = Some s).
  { apply mapM_ok_inv in Hcs. destruct (Forall2_nth _ _ _ Hcs _ _ Ee) as [s' [E1 E2]]. congruence. }
  unfold activities_in in Ha. rewrite B2 in Ha.
  apply Hc. apply (add_covered_proof _ _ _ _ _ _ _ _ Hom Hcs Hf j s Ej).
  destruct (covered_b m j) eqn:Cb; [left; apply covered_b_iff; exact Cb|right]. apply covered_b_false in Cb.
  assert (Hj : j < length (t_events t)) by (apply nth_error_Some; congruence).
  destruct (gap_around m _ j Hom Hj Cb) as [p [q [G1 G2]]]. exists p, q. split; [exact G1|]. split; [exact G2|]. split; [lia|]. exists a. split; [exact Ha|exact Hs].
Qed.
