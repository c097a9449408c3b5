From Coq Require Import Reals QArith Qround Lra Permutation Sorted.
From Verif Require Import Py PyFacts InfoModel InfoSpec InfoProofs EntropyModel EntropySpec EntropyProofs
  PosModel PosSpec PosProofs FilterModel FilterSpec FilterProofs.
Close Scope R_scope. Close Scope Q_scope. Open Scope nat_scope.

Lemma remove_name_drop l o : remove_name l o = drop l o.
Proof. destruct o; [apply remove_name_some|apply remove_name_none]. Qed.

Lemma Rltb_laws : order_laws Rltb.
Proof.
  unfold order_laws, Rltb. split; [|split]; intros *.
  - destruct (Rlt_dec a a); [exfalso; lra|reflexivity].
  - destruct (Rlt_dec a b), (Rlt_dec b c), (Rlt_dec a c); try discriminate; try reflexivity; intros; exfalso; lra.
  - destruct (Rlt_dec b a), (Rlt_dec a b); try discriminate; try reflexivity; intros; exfalso; lra.
Qed.

(* ---- scan ---- *)
Section Scan.
  Context {M : Type} (ltb : M -> M -> bool) (big : M) (u : pystr -> bool) (score : pystr -> result M).
  Hypothesis laws : order_laws ltb.

  Let best (cands : list pystr) (o : option pystr) (m : M) : Prop :=
    match o with
    | Some k => In k cands /\ u k = false /\ score k = Ok m /\ ltb m big = true /\
        forall c s, In c cands -> u c = false -> score c = Ok s -> ltb s m = false
    | None => m = big /\ forall c s, In c cands -> u c = false -> score c = Ok s -> ltb s big = false
    end.

  Lemma scan_proof cands : (forall c, In c cands -> u c = false -> exists s, score c = Ok s) ->
    exists o m, scan_candidates ltb big u score cands = Ok (o, m) /\ best cands o m.
  Proof.
    intros Hs. destruct laws as [L1 [L2 L3]]. unfold scan_candidates.
    set (step := fun (b : option pystr * M) (c : pystr) =>
        if u c then Ok b else bind (score c) (fun s => Ok (if ltb s (snd b) then (Some c, s) else b))).
    assert (G : forall rest done o m, best done o m ->
       (forall c, In c rest -> u c = false -> exists s, score c = Ok s) ->
       exists o' m', loopM step rest (o, m) = Ok (o', m') /\ best (done ++ rest) o' m').
    { induction rest as [|c rest IH]; intros done o m Hb Hr.
      - exists o, m. rewrite app_nil_r. auto.
      - rewrite loopM_cons. replace (done ++ c :: rest) with ((done ++ [c]) ++ rest) by (rewrite <- app_assoc; reflexivity).
        unfold step at 1. destruct (u c) eqn:Eu.
        + cbn [bind]. apply IH; [|intros; apply Hr; [right|]; assumption].
          destruct o as [k|]; cbn [best] in *; unfold best in *.
          * destruct Hb as [H1 [H2 [H3 [H4 H5]]]]. split; [apply in_or_app; left; exact H1|]. split; [exact H2|]. split; [exact H3|]. split; [exact H4|].
            intros c' s Hc Hu Hsc. apply in_app_or in Hc. destruct Hc as [Hc|[<-|[]]]; [apply (H5 c' s Hc Hu Hsc)|congruence].
          * destruct Hb as [H1 H2]. split; [exact H1|]. intros c' s Hc Hu Hsc. apply in_app_or in Hc. destruct Hc as [Hc|[<-|[]]]; [apply (H2 c' s Hc Hu Hsc)|congruence].
        + destruct (Hr c (or_introl eq_refl) Eu) as [s Es]. rewrite Es. cbn [bind snd].
          destruct (ltb s m) eqn:El.
          * apply IH; [|intros; apply Hr; [right|]; assumption]. unfold best in *.
            assert (Hold : ltb s big = true /\ forall c' s', In c' done -> u c' = false -> score c' = Ok s' -> ltb s' s = false).
            { destruct o as [k|].
              - destruct Hb as [H1 [H2 [H3 [H4 H5]]]]. split.
                + destruct (ltb s big) eqn:Esb; [reflexivity|]. exfalso.
                  assert (ltb s m = false) by (apply (L2 s big m); [exact Esb|apply L3; exact H4]). congruence.
                + intros c' s' Hc Hu Hsc. apply (L2 s' m s); [apply (H5 c' s' Hc Hu Hsc)|apply L3; exact El].
              - destruct Hb as [-> H2]. split; [exact El|]. intros c' s' Hc Hu Hsc.
                apply (L2 s' big s); [apply (H2 c' s' Hc Hu Hsc)|apply L3; exact El]. }
            destruct Hold as [Hb1 Hb2]. split; [apply in_or_app; right; left; reflexivity|]. split; [exact Eu|]. split; [exact Es|]. split; [exact Hb1|].
            intros c' s' Hc Hu Hsc. apply in_app_or in Hc. destruct Hc as [Hc|[<-|[]]]; [apply (Hb2 c' s' Hc Hu Hsc)|].
            rewrite Es in Hsc. injection Hsc as <-. apply L1.
          * apply IH; [|intros; apply Hr; [right|]; assumption]. unfold best in *. destruct o as [k|].
            -- destruct Hb as [H1 [H2 [H3 [H4 H5]]]]. split; [apply in_or_app; left; exact H1|]. split; [exact H2|]. split; [exact H3|]. split; [exact H4|].
               intros c' s' Hc Hu Hsc. apply in_app_or in Hc. destruct Hc as [Hc|[<-|[]]]; [apply (H5 c' s' Hc Hu Hsc)|].
               rewrite Es in Hsc. injection Hsc as <-. exact El.
            -- destruct Hb as [-> H2]. split; [reflexivity|]. intros c' s' Hc Hu Hsc. apply in_app_or in Hc. destruct Hc as [Hc|[<-|[]]]; [apply (H2 c' s' Hc Hu Hsc)|].
               rewrite Es in Hsc. injection Hsc as <-. exact El. }
    destruct (G cands [] None big) as [o [m [E B]]]; [split; [reflexivity|intros c s []]|exact Hs|].
    exists o, m. split; [exact E|exact B].
  Qed.
End Scan.

Lemma scan_best {M} (ltb : M -> M -> bool) big u total l score cands :
  order_laws ltb -> (forall l', exists s, total l' = Ok s) ->
  (forall c, In c cands -> score c = total (without l [c])) ->
  exists o m, scan_candidates ltb big u score cands = Ok (o, m) /\ best_removal ltb big total cands u l o m.
Proof.
  intros Hl Ht Hs. destruct (scan_proof ltb big u score Hl cands) as [o [m [E B]]].
  { intros c Hc _. rewrite (Hs c Hc). apply Ht. }
  exists o, m. split; [exact E|]. unfold best_removal. destruct o as [k|].
  - destruct B as [H1 [H2 [H3 [H4 H5]]]]. rewrite (Hs k H1) in H3. split; [exact H1|]. split; [exact H2|]. split; [exact H3|]. split; [exact H4|].
    intros c s Hc Hu Hsc. apply (H5 c s Hc Hu). rewrite (Hs c Hc). exact Hsc.
  - destruct B as [H1 H2]. split; [exact H1|]. intros c s Hc Hu Hsc. apply (H2 c s Hc Hu). rewrite (Hs c Hc). exact Hsc.
Qed.

(* ---- loop ---- *)
Lemma indirect_loop_proof {M} (ltb leb : M -> M -> bool) big stop total next is_cands u threshold max :
  (forall l : names_log, exists s, total l = Ok s) ->
  (forall l, exists o m, next l = Ok (o, m) /\ exists cands, is_cands l cands /\ best_removal ltb big total cands u l o m) ->
  forall fuel log c, (0 <= c)%Z -> (c < Z.max 1 max)%Z -> (Z.max 1 max - c <= Z.of_nat fuel)%Z ->
  exists log', indirect_loop leb stop total next fuel threshold max log c = Some (Ok log') /\
  exists steps,
    log' = after_opt steps log /\
    (c + Z.of_nat (length steps) <= Z.max 1 max)%Z /\
    (forall i o, nth_error steps i = Some o ->
      let l := after_opt (firstn i steps) log in
      (stop = true -> l <> []) /\
      (exists s, total l = Ok s /\ leb s threshold = false) /\
      (exists cands m, is_cands l cands /\ best_removal ltb big total cands u l o m)) /\
    ((stop = true /\ log' = []) \/ (exists s, total log' = Ok s /\ leb s threshold = true) \/
     (c + Z.of_nat (length steps) = Z.max 1 max)%Z).
Proof.
  intros Ht Hn. induction fuel as [|fuel IH]; intros log c Hc0 Hc Hf; [lia|].
  cbn [indirect_loop]. destruct (stop && (length log =? 0)) eqn:Es.
  - apply andb_true_iff in Es. destruct Es as [-> E]. apply Nat.eqb_eq in E.
    assert (log = []) by (destruct log; [reflexivity|discriminate]). subst log.
    exists []. split; [reflexivity|]. exists []. split; [reflexivity|]. split; [cbn; lia|]. split; [intros i o H; destruct i; discriminate|]. left; auto.
  - assert (Hne : stop = true -> log <> []). { intros -> ->. discriminate Es. }
    destruct (Ht log) as [s Hs]. rewrite Hs. destruct (leb s threshold) eqn:El.
    + exists log. split; [reflexivity|]. exists []. split; [reflexivity|]. split; [cbn; lia|]. split; [intros i o H; destruct i; discriminate|]. right; left. eauto.
    + destruct (Hn log) as [o [m [En [cands [Hcs Hb]]]]]. rewrite En. cbn zeta. rewrite remove_name_drop.
      destruct (Z.leb_spec max (c + 1)) as [Hm|Hm].
      * exists (drop log o). split; [reflexivity|]. exists [o]. split; [reflexivity|]. split; [cbn; lia|]. split.
        -- intros i o' H. destruct i as [|i]; [|destruct i; discriminate]. cbn in H. injection H as <-. cbn.
           split; [exact Hne|]. split; eauto.
        -- right; right. cbn. lia.
      * destruct (IH (drop log o) (c + 1)%Z) as [log' [E [steps [H1 [H2 [H3 H4]]]]]]; [lia|lia|lia|].
        exists log'. split; [exact E|]. exists (o :: steps). split; [exact H1|]. split; [cbn [length]; lia|]. split.
        -- intros i o' H. destruct i as [|i].
           ++ cbn in H. injection H as <-. cbn. split; [exact Hne|]. split; eauto.
           ++ cbn [nth_error] in H. apply (H3 i o' H).
        -- destruct H4 as [H4|[H4|H4]]; [left; exact H4|right; left; exact H4|right; right; cbn [length]; lia].
Qed.

Lemma indirect_outcome_proof {M} (ltb leb : M -> M -> bool) big stop total next is_cands u threshold max log fuel :
  (forall l : names_log, exists s, total l = Ok s) ->
  (forall l, exists o m, next l = Ok (o, m) /\ exists cands, is_cands l cands /\ best_removal ltb big total cands u l o m) ->
  (Z.max 1 max <= Z.of_nat fuel)%Z ->
  exists log', indirect_loop leb stop total next fuel threshold max log 0 = Some (Ok log') /\
    indirect_outcome ltb leb big stop total is_cands u threshold max log log'.
Proof.
  intros Ht Hn Hf.
  destruct (indirect_loop_proof ltb leb big stop total next is_cands u threshold max Ht Hn fuel log 0%Z) as [log' [E [steps H]]]; [lia|lia|lia|].
  exists log'. split; [exact E|]. exists steps. exact H.
Qed.

(* ---- position entropies ---- *)
Lemma pos_sum_ok {F} (finish : list nat -> nat -> F) add zero l :
  position_entropies_fast_sum finish add zero l None (Some (create_events_positions l)) =
  Ok (fold_left add (dvalues (pos_dict finish l None)) zero).
Proof.
  unfold position_entropies_fast_sum.
  destruct (position_dicts_proof finish l None (Some (create_events_positions l)) I (or_intror eq_refl)) as [E _].
  rewrite E. reflexivity.
Qed.

Lemma pos_sum_ignoring {F} (finish : list nat -> nat -> F) add zero l n :
  position_entropies_fast_sum finish add zero l (Some (mkIgn [n] (calculate_events_in_each_trace l))) (Some (create_events_positions l)) =
  position_entropies_fast_sum finish add zero (without l [n]) None (Some (create_events_positions (without l [n]))).
Proof.
  rewrite pos_sum_ok. unfold position_entropies_fast_sum.
  destruct (position_dicts_proof finish l (Some (mkIgn [n] (calculate_events_in_each_trace l))) (Some (create_events_positions l))) as [E _].
  { cbn. split; [repeat constructor; intros []|reflexivity]. } { right; reflexivity. }
  rewrite E. cbn [bind ign_names option_map ig_events]. rewrite pos_dict_without. reflexivity.
Qed.

Lemma pos_next_proof {F} (finish : list nat -> nat -> F) ltb add zero big u l :
  order_laws ltb ->
  exists o m, next_event_remove_pos_entropy_indirect finish ltb add zero big u l = Ok (o, m) /\
  exists cands, (forall n, In n cands <-> occurs n l) /\
    best_removal ltb big (fun l => position_entropies_fast_sum finish add zero l None (Some (create_events_positions l))) cands u l o m.
Proof.
  intros Hl. unfold next_event_remove_pos_entropy_indirect. cbn zeta.
  destruct (scan_best ltb big u (fun l => position_entropies_fast_sum finish add zero l None (Some (create_events_positions l))) l
    (fun n => position_entropies_fast_sum finish add zero l (Some (mkIgn [n] (calculate_events_in_each_trace l))) (Some (create_events_positions l)))
    (dkeys (li_events_count (create_log_information l None true))) Hl) as [o [m [E B]]].
  - intros l'. eexists. apply pos_sum_ok.
  - intros c _. apply pos_sum_ignoring.
  - exists o, m. split; [exact E|]. eexists. split; [|exact B]. intros n. rewrite occurs_occurrences. apply (names_of_In l None).
Qed.

Lemma pos_indirect_proof {F} (finish : list nat -> nat -> F) ltb leb add zero big fuel log threshold max u :
  order_laws ltb -> (Z.max 1 max <= Z.of_nat fuel)%Z ->
  exists log', filter_events_pos_entropy_indirect finish ltb leb add zero big fuel log threshold max u = Some (Ok log') /\
    indirect_outcome ltb leb big false
      (fun l => position_entropies_fast_sum finish add zero l None (Some (create_events_positions l)))
      (fun l cands => forall n, In n cands <-> occurs n l) u threshold max log log'.
Proof.
  intros Hl Hf. unfold filter_events_pos_entropy_indirect. apply indirect_outcome_proof.
  - intros l. eexists. apply pos_sum_ok.
  - intros l. apply pos_next_proof. exact Hl.
  - exact Hf.
Qed.

(* ---- default entropies ---- *)
Lemma insert_item_perm kv l : Permutation (kv :: l) (insert_item kv l).
Proof. induction l as [|y l IH]; cbn; [reflexivity|]. destruct (Rle_dec (snd kv) (snd y)); [reflexivity|]. rewrite perm_swap. constructor. exact IH. Qed.
Lemma sort_items_perm l : Permutation l (sort_items l).
Proof. induction l as [|y l IH]; cbn; [reflexivity|]. rewrite <- insert_item_perm. constructor. exact IH. Qed.
Lemma insert_item_sorted kv l : StronglySorted (fun a b => (snd a <= snd b)%R) l -> StronglySorted (fun a b => (snd a <= snd b)%R) (insert_item kv l).
Proof.
  induction 1 as [|y l H IH F]; cbn [insert_item]; [repeat constructor|].
  destruct (Rle_dec (snd kv) (snd y)) as [Hle|Hle].
  - constructor; [constructor; assumption|]. constructor; [exact Hle|]. eapply Forall_impl; [|exact F]. cbn; intros; lra.
  - constructor; [exact IH|]. rewrite Forall_forall in *. intros z Hz.
    eapply Permutation_in in Hz; [|symmetry; apply insert_item_perm]. destruct Hz as [<-|Hz]; [lra|apply F; exact Hz].
Qed.
Lemma sort_items_sorted l : StronglySorted (fun a b => (snd a <= snd b)%R) (sort_items l).
Proof. induction l as [|y l IH]; cbn; [constructor|]. apply insert_item_sorted, IH. Qed.

Lemma q_trunc_floor q : (0 <= q)%Q -> q_trunc q = Qfloor q.
Proof.
  intros H. unfold q_trunc, Qfloor. destruct q as [a b]. cbn. apply Z.quot_div_nonneg; [|reflexivity].
  unfold Qle in H. cbn in H. lia.
Qed.

Lemma sorted_app {A} (R : A -> A -> Prop) l1 l2 : StronglySorted R (l1 ++ l2) -> forall x y, In x l1 -> In y l2 -> R x y.
Proof.
  induction l1 as [|a l1 IH]; cbn; intros H x y Hx Hy; [destruct Hx|]. inversion H as [|? ? H1 H2]; subst.
  destruct Hx as [<-|Hx]; [rewrite Forall_forall in H2; apply H2, in_or_app; right; exact Hy|apply IH; assumption].
Qed.

Lemma top_entropies_spec d q : (0 <= q)%Q -> (q <= 1)%Q -> top_of d q (map fst (top_entropies (sort_items d) q)).
Proof.
  intros H0 H1. unfold top_entropies, slice_from.
  pose proof (Permutation_length (sort_items_perm d)) as El. rewrite <- El.
  set (n := Z.of_nat (length d)). assert (Hn : (0 <= n)%Z) by (unfold n; lia).
  assert (Hn' : (0 <= inject_Z n)%Q) by (unfold Qle; cbn; lia).
  assert (Hq0 : (0 <= inject_Z n * q)%Q) by (apply Qmult_le_0_compat; assumption).
  rewrite (q_trunc_floor _ Hq0).
  assert (F0 : (0 <= Qfloor (inject_Z n * q))%Z). { change 0%Z with (Qfloor (inject_Z 0)). apply Qfloor_resp_le. exact Hq0. }
  assert (F1 : (Qfloor (inject_Z n * q) <= n)%Z).
  { rewrite <- (Qfloor_Z n) at 2. apply Qfloor_resp_le. rewrite <- (Qmult_1_r (inject_Z n)) at 2.
    rewrite !(Qmult_comm (inject_Z n)). apply Qmult_le_compat_r; assumption. }
  destruct (Z.ltb_spec (n - Qfloor (inject_Z n * q)) 0) as [Hlt|Hge]; [lia|].
  set (k := Z.to_nat (n - Qfloor (inject_Z n * q))).
  exists (firstn k (sort_items d)), (skipn k (sort_items d)). split; [|split; [reflexivity|split]].
  - rewrite firstn_skipn. apply sort_items_perm.
  - rewrite skipn_length, <- El. unfold k. fold n. unfold n in *. lia.
  - apply sorted_app. rewrite firstn_skipn. apply sort_items_sorted.
Qed.

Lemma entropies_without laplace l S :
  calculate_laplace_or_default_entropies laplace l (Some S) = calculate_laplace_or_default_entropies laplace (without l S) None.
Proof.
  destruct laplace; cbn [calculate_laplace_or_default_entropies]; unfold calculate_laplace_entropies, calculate_default_entropies, calculate_entropies;
    rewrite info_without; reflexivity.
Qed.

Lemma average_ok laplace l ign : exists s, calculate_default_entropy_average laplace l ign = Ok s.
Proof.
  unfold calculate_default_entropy_average, calculate_laplace_or_default_entropies.
  destruct laplace; [rewrite laplace_entropies_eq|rewrite default_entropies_eq]; cbn [bind]; eauto.
Qed.

Lemma default_next_proof laplace q u l : (0 <= q)%Q -> (q <= 1)%Q ->
  exists o m, next_removal_default_entropy_indirect laplace q u l = Ok (o, m) /\
  exists cands, (exists d, calculate_laplace_or_default_entropies laplace l None = Ok d /\ top_of d q cands) /\
    best_removal Rltb R_1e10 (fun l => calculate_default_entropy_average laplace l None) cands u l o m.
Proof.
  intros H0 H1. unfold next_removal_default_entropy_indirect.
  destruct (default_metric_eq laplace l) as [g E]. rewrite E. cbn [bind].
  set (d := map (fun n => (n, g n)) (names_of l None)).
  destruct (scan_best Rltb R_1e10 u (fun l => calculate_default_entropy_average laplace l None) l
    (fun key => calculate_default_entropy_average laplace l (Some [key])) (map fst (top_entropies (sort_items d) q)) Rltb_laws) as [o [m [Es B]]].
  - intros l'. apply average_ok.
  - intros c _. unfold calculate_default_entropy_average. rewrite entropies_without. reflexivity.
  - exists o, m. split; [exact Es|]. eexists. split; [|exact B]. exists d. split; [reflexivity|]. apply top_entropies_spec; assumption.
Qed.

Lemma default_indirect_proof fuel log laplace threshold q max u :
  (0 <= q)%Q -> (q <= 1)%Q -> (Z.max 1 max <= Z.of_nat fuel)%Z ->
  exists log', filter_events_default_entropy_indirect fuel log laplace threshold q max u = Some (Ok log') /\
    indirect_outcome Rltb Rleb R_1e10 true (fun l => calculate_default_entropy_average laplace l None)
      (fun l cands => exists d, calculate_laplace_or_default_entropies laplace l None = Ok d /\ top_of d q cands)
      u threshold max log log'.
Proof.
  intros H0 H1 Hf. unfold filter_events_default_entropy_indirect. apply indirect_outcome_proof.
  - intros l. apply average_ok.
  - intros l. apply default_next_proof; assumption.
  - exact Hf.
Qed.

(* ---- small logs ---- *)
Lemma small_next laplace q u l : (0 <= q)%Q -> (inject_Z (Z.of_nat (length (distinct_names l))) * q < 1)%Q ->
  next_removal_default_entropy_indirect laplace q u l = Ok (None, R_1e10).
Proof.
  intros H0 H1. unfold next_removal_default_entropy_indirect.
  destruct (default_metric_eq laplace l) as [g E]. rewrite E. cbn [bind].
  assert (Hlen : length (names_of l None) = length (distinct_names l)).
  { apply Nat.le_antisymm; apply NoDup_incl_length; try apply names_of_NoDup; try apply NoDup_nodup; intros n Hn.
    - apply occurs_distinct, occurs_occurrences, names_of_In. exact Hn.
    - apply names_of_In, occurs_occurrences, occurs_distinct. exact Hn. }
  assert (Et : top_entropies (sort_items (map (fun n => (n, g n)) (names_of l None))) q = []).
  { unfold top_entropies, slice_from. rewrite <- (Permutation_length (sort_items_perm _)), map_length, Hlen.
    set (n := Z.of_nat (length (distinct_names l))) in *.
    assert (Hn' : (0 <= inject_Z n)%Q) by (unfold Qle, n; cbn; lia).
    assert (Hq0 : (0 <= inject_Z n * q)%Q) by (apply Qmult_le_0_compat; assumption).
    rewrite (q_trunc_floor _ Hq0).
    assert (F0 : (0 <= Qfloor (inject_Z n * q))%Z). { change 0%Z with (Qfloor (inject_Z 0)). apply Qfloor_resp_le. exact Hq0. }
    assert (F1 : (Qfloor (inject_Z n * q) < 1)%Z).
    { pose proof (Qfloor_le (inject_Z n * q)) as Hle. assert (Hlt : (inject_Z (Qfloor (inject_Z n * q)) < inject_Z 1)%Q) by (eapply Qle_lt_trans; [exact Hle|exact H1]).
      rewrite <- Zlt_Qlt in Hlt. exact Hlt. }
    replace (Qfloor (inject_Z n * q)) with 0%Z by lia. rewrite Z.sub_0_r. destruct (Z.ltb_spec n 0); [unfold n in *; lia|].
    apply skipn_all2. rewrite <- (Permutation_length (sort_items_perm _)), map_length, Hlen. unfold n. lia. }
  rewrite Et. reflexivity.
Qed.

Lemma distinct_without_nil l : distinct_names (without l []) = distinct_names l.
Proof.
  unfold distinct_names, without. f_equal. induction l as [|t l IH]; [reflexivity|]. cbn [map filter].
  assert (E : kept (Some []) t = t). { unfold kept. clear. induction t as [|n t IH]; [reflexivity|]. cbn. f_equal. exact IH. }
  rewrite E. destruct t; cbn [concat]; rewrite IH; reflexivity.
Qed.

Lemma small_log_proof laplace q u log threshold max :
  (0 <= q)%Q -> (inject_Z (Z.of_nat (length (distinct_names log))) * q < 1)%Q ->
  no_empty_trace log ->
  (forall fuel r, filter_events_default_entropy_indirect fuel log laplace threshold q max u = Some r -> r = Ok log) /\
  (log <> [] -> (forall s, calculate_default_entropy_average laplace log None = Ok s -> threshold < s)%R ->
   forall fuel, (Z.of_nat fuel < max)%Z ->
   filter_events_default_entropy_indirect fuel log laplace threshold q max u = None).
Proof.
  intros H0 H1 Hne. unfold filter_events_default_entropy_indirect. split.
  - intros fuel. generalize 0%Z. induction fuel as [|fuel IH]; intros c r; cbn [indirect_loop]; [discriminate|].
    destruct (true && (length log =? 0)); [intros E; injection E as <-; reflexivity|].
    destruct (average_ok laplace log None) as [s Es]. rewrite Es.
    destruct (Rleb s threshold); [intros E; injection E as <-; reflexivity|].
    rewrite (small_next laplace q u log H0 H1), remove_name_none, (without_nil log Hne). cbn zeta.
    destruct (max <=? c + 1)%Z; [intros E; injection E as <-; reflexivity|]. apply IH.
  - intros Hlog Hs fuel. assert (G : forall c, (c + Z.of_nat fuel < max)%Z ->
      indirect_loop Rleb true (fun l => calculate_default_entropy_average laplace l None)
        (next_removal_default_entropy_indirect laplace q u) fuel threshold max log c = None).
    { induction fuel as [|fuel IH]; intros c Hc; cbn [indirect_loop]; [reflexivity|].
      destruct (Nat.eqb_spec (length log) 0) as [E|E]; [destruct log; [congruence|discriminate]|]. cbn [andb].
      destruct (average_ok laplace log None) as [s Es]. rewrite Es.
      unfold Rleb. destruct (Rle_dec s threshold) as [Hle|Hle]; [specialize (Hs s Es); exfalso; lra|].
      rewrite (small_next laplace q u log H0 H1), remove_name_none, (without_nil log Hne). cbn zeta.
      destruct (Z.leb_spec max (c + 1)); [lia|]. apply IH. lia. }
    intros Hf. apply G. lia.
Qed.

(* ---- till end, indirect ---- *)
Lemma pos_till_end_diverges_proof {F} (finish : list nat -> nat -> F) ltb add zero big sub kind u log :
  order_laws ltb -> (exists n, occurs n log /\ u n = true) ->
  forall fuel rs, pos_indirect_till_end finish ltb add zero big sub fuel kind u log rs = None.
Proof.
  intros Hl Hex fuel. revert log Hex. induction fuel as [|fuel IH]; intros log [n [Hn Hu]] rs; [reflexivity|].
  cbn [pos_indirect_till_end]. destruct (Nat.eqb_spec (length log) 0) as [E|E].
  { exfalso. destruct Hn as [t [Ht _]]. destruct log; [destruct Ht|discriminate]. }
  rewrite pos_sum_ok. cbn [bind]. destruct (pos_next_proof finish ltb add zero big u log Hl) as [o [m [En [cands [Hc Hb]]]]].
  rewrite En. cbn [bind fst snd]. apply IH. exists n. split; [|exact Hu]. rewrite remove_name_drop.
  destruct o as [k|]; cbn [drop]; apply occurs_without; split; try exact Hn.
  - intros [<-|[]]. cbn [best_removal] in Hb. destruct Hb as [_ [Hb _]]. congruence.
  - intros [].
Qed.

Lemma pos_till_end_proof {F} (finish : list nat -> nat -> F) ltb add zero big sub kind :
  order_laws ltb ->
  let total := fun l => position_entropies_fast_sum finish add zero l None (Some (create_events_positions l)) in
  (forall l s, total l = Ok s -> ltb s big = true) ->
  forall fuel log rs, no_empty_trace log -> length (distinct_names log) < fuel ->
  exists out, pos_indirect_till_end finish ltb add zero big sub fuel kind (fun _ => false) log rs =
      Some (Ok (rs ++ map (fun x => (Some (fst x), snd x)) out)) /\
    Permutation (map fst out) (distinct_names log) /\
    forall i n v, nth_error out i = Some (n, v) ->
      let l := after (firstn i (map fst out)) log in
      exists before m, total l = Ok before /\ total (without l [n]) = Ok m /\
        v = (match kind with BeforeOnly => before | AfterBeforeDelta => sub before m end) /\
        forall c s, occurs c l -> total (without l [c]) = Ok s -> ltb s m = false.
Proof.
  intros Hl total Hbig. induction fuel as [|fuel IH]; intros log rs Hne Hf; [lia|].
  cbn [pos_indirect_till_end]. destruct (Nat.eqb_spec (length log) 0) as [E|E].
  - exists []. assert (log = []) by (destruct log; [reflexivity|discriminate]). subst log.
    split; [cbn; rewrite app_nil_r; reflexivity|]. split; [constructor|]. intros i n v H; destruct i; discriminate.
  - assert (Hlog : log <> []) by (intros ->; apply E; reflexivity).
    rewrite pos_sum_ok. cbn [bind]. destruct (pos_next_proof finish ltb add zero big (fun _ => false) log Hl) as [o [m [En [cands [Hc Hb]]]]].
    rewrite En. cbn [bind fst snd]. destruct o as [k|].
    2:{ exfalso. cbn [best_removal] in Hb. destruct Hb as [_ Hb]. destruct (no_empty_occurs log Hne Hlog) as [n Hn].
        apply Hc in Hn. specialize (Hb n _ Hn eq_refl (pos_sum_ok finish add zero _)).
        specialize (Hbig (without log [n]) _ (pos_sum_ok finish add zero _)). congruence. }
    cbn [best_removal] in Hb. destruct Hb as [B1 [_ [B3 [B4 B5]]]]. apply Hc in B1.
    rewrite remove_name_some.
    match goal with |- exists out, pos_indirect_till_end _ _ _ _ _ _ _ _ _ _ (rs ++ [(Some k, ?w)]) = _ /\ _ => set (v0 := w) end.
    destruct (IH (without log [k]) (rs ++ [(Some k, v0)]) (no_empty_without log [k])) as [out [E1 [E2 E3]]].
    { pose proof (distinct_decreases k log B1). lia. }
    exists ((k, v0) :: out). split; [|split].
    + rewrite E1, <- app_assoc. reflexivity.
    + cbn [map fst]. apply NoDup_Permutation.
      * constructor; [|eapply Permutation_NoDup; [symmetry; exact E2|apply NoDup_nodup]].
        intros Hin. eapply Permutation_in in Hin; [|exact E2]. apply occurs_distinct, occurs_without in Hin. cbn in Hin. tauto.
      * apply NoDup_nodup.
      * intros x. rewrite <- occurs_distinct. cbn [In]. split.
        -- intros [<-|Hin]; [exact B1|]. eapply Permutation_in in Hin; [|exact E2]. apply occurs_distinct, occurs_without in Hin. tauto.
        -- intros Hx. destruct (str_eq_dec k x) as [->|Hkx]; [left; reflexivity|right].
           eapply Permutation_in; [symmetry; exact E2|]. apply occurs_distinct, occurs_without. cbn. intuition congruence.
    + intros i n v Hi. destruct i as [|i].
      * cbn in Hi. injection Hi as <- <-. cbn [map firstn after fold_left]. eexists; exists m. split; [apply pos_sum_ok|]. split; [exact B3|].
        split; [unfold v0; destruct kind; reflexivity|]. intros c s Hoc Hs. apply (B5 c s); [apply Hc; exact Hoc|reflexivity|exact Hs].
      * cbn [nth_error] in Hi. apply (E3 i n v Hi).
Qed.

(* ---- till end, direct ---- *)
Lemma till_end_proof {M} (gtb : M -> M -> bool) metric (touchable : pystr -> Prop) add sub zero kind :
  order_laws gtb ->
  (forall l, exists d, metric l = Ok d /\ forall n, In n (dkeys d) <-> occurs n l /\ touchable n) ->
  forall fuel log rs, length (distinct_names log) < fuel ->
  exists out,
    NoDup (map fst out) /\
    (forall n, In n (map fst out) -> occurs n log /\ touchable n) /\
    till_end_loop gtb metric add sub zero fuel kind log rs =
      Some (match after (map fst out) log with [] => Ok (rs ++ out) | _ => Err ValueError end) /\
    (forall n, occurs n log -> touchable n -> In n (map fst out)) /\
    forall i n v, nth_error out i = Some (n, v) ->
      let l := after (firstn i (map fst out)) log in
      exists d m d', metric l = Ok d /\ In (n, m) d /\ (forall n' m', In (n', m') d -> gtb m' m = false) /\
        metric (without l [n]) = Ok d' /\
        v = match kind with BeforeOnly => fold_left add (dvalues d) zero
            | AfterBeforeDelta => sub (fold_left add (dvalues d) zero) (fold_left add (dvalues d') zero) end.
Proof.
  intros Hl Hm. induction fuel as [|fuel IH]; intros log rs Hf; [lia|].
  cbn [till_end_loop]. destruct (Nat.eqb_spec (length log) 0) as [E|E].
  - exists []. assert (log = []) by (destruct log; [reflexivity|discriminate]). subst log. cbn [map after fold_left].
    split; [constructor|]. split; [intros n []|]. split; [rewrite app_nil_r; reflexivity|]. split; [intros n [t [[] _]]|].
    intros i n v H; destruct i; discriminate.
  - assert (Hlog : log <> []) by (intros ->; apply E; reflexivity).
    unfold metric_sum, next_direct. destruct (Hm log) as [d [Hd Hk]]. rewrite Hd. cbn [bind].
    destruct (max_item gtb d) as [[n m]|e] eqn:Emax; cbn [bind fst].
    2:{ exists []. destruct d; [injection Emax as <-|discriminate]. split; [constructor|]. split; [intros n []|]. cbn [map after fold_left].
        split; [destruct log; [congruence|reflexivity]|]. split; [intros n H1 H2; apply (proj2 (Hk n)); auto|]. intros i n v H; destruct i; discriminate. }
    pose proof (max_item_spec gtb d _ Emax) as Hin. pose proof (max_item_max gtb d _ Hl Emax) as Hmx. cbn [snd] in Hmx.
    assert (Hn : occurs n log /\ touchable n). { apply Hk. apply in_map_iff. exists (n, m). auto. }
    rewrite remove_name_some. destruct (Hm (without log [n])) as [d' [Hd' Hk']].
    set (v0 := match kind with BeforeOnly => fold_left add (dvalues d) zero
            | AfterBeforeDelta => sub (fold_left add (dvalues d) zero) (fold_left add (dvalues d') zero) end).
    destruct (IH (without log [n]) (rs ++ [(n, v0)])) as [out [O1 [O2 [O3 [O4 O5]]]]].
    { destruct Hn as [Hn _]. apply distinct_decreases in Hn. lia. }
    exists ((n, v0) :: out). cbn [map fst]. split; [|split; [|split; [|split]]].
    + constructor; [|exact O1]. intros Hx. apply O2 in Hx. destruct Hx as [Hx _]. apply occurs_without in Hx. cbn in Hx. tauto.
    + intros x [<-|Hx]; [exact Hn|]. destruct (O2 x Hx) as [H1 H2]. apply occurs_without in H1. tauto.
    + replace (rs ++ (n, v0) :: out) with ((rs ++ [(n, v0)]) ++ out) by (rewrite <- app_assoc; reflexivity).
      change (after (n :: map fst out) log) with (after (map fst out) (without log [n])). rewrite <- O3.
      unfold v0. destruct kind; [reflexivity|]. rewrite Hd'. reflexivity.
    + intros x Hx Ht. destruct (str_eq_dec n x) as [Hnx|Hnx]; [left; exact Hnx|right]. apply O4; [|exact Ht]. apply occurs_without. cbn. intuition congruence.
    + intros i x v Hi. destruct i as [|i].
      * cbn in Hi. injection Hi as <- <-. cbn [firstn after fold_left]. exists d, m, d'.
        split; [exact Hd|]. split; [exact Hin|]. split; [intros n' m' H'; apply (Hmx (n', m') H')|]. split; [exact Hd'|reflexivity].
      * cbn [nth_error] in Hi. apply (O5 i x v Hi).
Qed.

Lemma pos_metric_exact {F} (finish : list nat -> nat -> F) u l :
  exists d, bind (position_entropies_fast finish l None None) (fun d => Ok (remove_untouchable d u)) = Ok d /\
    forall n, In n (dkeys d) <-> occurs n l /\ u n = false.
Proof.
  destruct (position_dicts_proof finish l None None I (or_introl eq_refl)) as [E _]. rewrite E. cbn [bind]. eexists. split; [reflexivity|].
  intros n. rewrite remove_untouchable_keys. unfold pos_dict, dkeys. rewrite map_map, map_id.
  rewrite occurs_occurrences. rewrite <- (names_of_In l None n). reflexivity.
Qed.

Lemma pos_direct_till_end_proof {F} (gtb : F -> F -> bool) finish add sub zero kind u fuel log :
  order_laws gtb -> no_empty_trace log -> length (distinct_names log) < fuel ->
  let metric := fun l => bind (position_entropies_fast finish l None None) (fun d => Ok (remove_untouchable d u)) in
  ((exists n, occurs n log /\ u n = true) ->
    filter_events_pos_entropy_direct_till_end gtb finish add sub zero fuel log kind u = Some (Err ValueError)) /\
  ((forall n, occurs n log -> u n = false) ->
   exists out, filter_events_pos_entropy_direct_till_end gtb finish add sub zero fuel log kind u = Some (Ok out) /\
    Permutation (map fst out) (distinct_names log) /\
    forall i n v, nth_error out i = Some (n, v) ->
      let l := after (firstn i (map fst out)) log in
      exists d m d', metric l = Ok d /\ In (n, m) d /\ (forall n' m', In (n', m') d -> gtb m' m = false) /\
        metric (without l [n]) = Ok d' /\
        v = match kind with BeforeOnly => fold_left add (dvalues d) zero
            | AfterBeforeDelta => sub (fold_left add (dvalues d) zero) (fold_left add (dvalues d') zero) end).
Proof.
  intros Hl Hne Hf metric.
  destruct (till_end_proof gtb metric (fun n => u n = false) add sub zero kind Hl (pos_metric_exact finish u) fuel log [] Hf) as [out [O1 [O2 [O3 [O4 O5]]]]].
  unfold filter_events_pos_entropy_direct_till_end. fold metric.
  assert (Hocc : forall ns x, occurs x (after ns log) <-> occurs x log /\ ~ In x ns).
  { intros [|a ns] x; [cbn; tauto|]. rewrite after_without. apply occurs_without. }
  split.
  - intros [n [Hn Hu]]. rewrite O3. destruct (after (map fst out) log) as [|t l] eqn:Ea; [|reflexivity]. exfalso.
    assert (Hx : occurs n (after (map fst out) log)). { apply Hocc. split; [exact Hn|]. intros Hin. apply O2 in Hin. destruct Hin. congruence. }
    rewrite Ea in Hx. destruct Hx as [? [[] _]].
  - intros Hu. exists out. split; [|split; [|exact O5]].
    + rewrite O3. destruct (after (map fst out) log) as [|t l] eqn:Ea; [reflexivity|]. exfalso.
      destruct (no_empty_occurs (after (map fst out) log)) as [n Hn]; [apply no_empty_after; exact Hne|rewrite Ea; discriminate|].
      apply Hocc in Hn. destruct Hn as [Hn Hni]. apply Hni, O4; [exact Hn|apply Hu; exact Hn].
    + apply NoDup_Permutation; [exact O1|apply NoDup_nodup|]. intros n. rewrite <- occurs_distinct. split.
      * intros Hin. apply O2 in Hin. tauto.
      * intros Hn. apply O4; [exact Hn|apply Hu; exact Hn].
Qed.

Lemma laplace_average_nonneg log s : fake_free log ->
  calculate_default_entropy_average true log None = Ok s -> (0 <= s)%R.
Proof.
  intros Hff H. unfold calculate_default_entropy_average in H. cbn [calculate_laplace_or_default_entropies] in H.
  rewrite laplace_entropies_eq in H. cbn [bind] in H.
  set (dd := map (fun n => (n, laplace_value log None n)) (names_of log None)) in *.
  assert (P : forall (l : list (pystr * R)) acc, (0 <= acc)%R -> (forall kv, In kv l -> 0 <= snd kv)%R -> (0 <= fold_left Rplus (map snd l) acc)%R).
  { clear. induction l as [|x l IH]; intros acc Ha Hl; cbn; [exact Ha|]. apply IH; [|intros kv Hk; apply Hl; right; exact Hk].
    pose proof (Hl x (or_introl eq_refl)). lra. }
  assert (Hs : (0 <= sum_values dd)%R).
  { apply P; [lra|]. intros kv Hk. apply in_map_iff in Hk. destruct Hk as [n [<- Hn]]. cbn [snd].
    apply names_of_In in Hn. pose proof (laplace_value_spec _ None n Hff Hn) as [Hp _]. lra. }
  injection H as <-. destruct (Nat.eqb_spec (length dd) 0) as [E0|E0]; [lra|].
  apply Rmult_le_pos; [exact Hs|]. apply Rlt_le, Rinv_0_lt_compat, lt_0_INR. lia.
Qed.
