From Coq Require Import Reals QArith Lra Permutation.
From Verif Require Import Py PyFacts LogModel MutModel MutSpec InfoModel InfoSpec InfoProofs EntropyModel EntropySpec EntropyProofs
  PosModel PosSpec PosProofs FilterModel FilterSpec.
Close Scope R_scope. Close Scope Q_scope. Open Scope nat_scope.

(* ---- removal on names ---- *)
Lemma kept_one n t : kept (Some [n]) t = filter (fun m => negb (str_eqb m n)) t.
Proof.
  unfold kept. apply filter_ext. intros m. unfold str_eqb. destruct (in_dec str_eq_dec m [n]) as [H|H]; destruct (str_eq_dec m n) as [E|E]; cbn; try reflexivity.
  - destruct H as [H|[]]; congruence.
  - exfalso; apply H; left; congruence.
Qed.

Lemma remove_name_some log n : remove_name log (Some n) = without log [n].
Proof.
  unfold remove_name, without.
  rewrite (filter_ext (fun t : list pystr => 0 <? length t) (fun t => match t with [] => false | _ => true end)) by (intros []; reflexivity).
  f_equal. apply map_ext. intros t. symmetry. apply kept_one.
Qed.

Lemma remove_name_none log : remove_name log None = without log [].
Proof.
  unfold remove_name, without.
  rewrite (filter_ext (fun t : list pystr => 0 <? length t) (fun t => match t with [] => false | _ => true end)) by (intros []; reflexivity).
  reflexivity.
Qed.

Lemma kept_kept A B t : kept (Some B) (kept (Some A) t) = kept (Some (A ++ B)) t.
Proof.
  unfold kept. induction t as [|n t IH]; [reflexivity|]. cbn [filter].
  destruct (in_dec str_eq_dec n A) as [H|H]; destruct (in_dec str_eq_dec n (A ++ B)) as [H'|H'].
  - exact IH.
  - exfalso; apply H', in_or_app; left; exact H.
  - cbn [filter]. destruct (in_dec str_eq_dec n B) as [HB|HB]; [exact IH|].
    apply in_app_or in H'. destruct H'; contradiction.
  - cbn [filter]. destruct (in_dec str_eq_dec n B) as [HB|HB]; [exfalso; apply H', in_or_app; right; exact HB|].
    f_equal. exact IH.
Qed.

Lemma without_without log A B : without (without log A) B = without log (A ++ B).
Proof.
  unfold without. induction log as [|t log IH]; [reflexivity|]. cbn [map filter].
  rewrite <- (kept_kept A B t). destruct (kept (Some A) t) as [|n t'] eqn:E.
  - rewrite IH. reflexivity.
  - cbn [map filter]. rewrite IH. reflexivity.
Qed.

Lemma after_without log n ns : after (n :: ns) log = without log (n :: ns).
Proof.
  unfold after. cbn [fold_left]. revert n. assert (H : forall A, fold_left (fun l m => without l [m]) ns (without log A) = without log (A ++ ns)).
  { induction ns as [|m ns IH]; intros A; cbn [fold_left]; [rewrite app_nil_r; reflexivity|].
    rewrite without_without, IH, <- app_assoc. reflexivity. }
  intros n. apply H.
Qed.

Lemma occurs_without n log A : occurs n (without log A) <-> occurs n log /\ ~ In n A.
Proof.
  unfold occurs, without. split.
  - intros [t [Ht Hn]]. apply filter_In in Ht. destruct Ht as [Ht _]. apply in_map_iff in Ht. destruct Ht as [u [<- Hu]].
    unfold kept in Hn. apply filter_In in Hn. destruct Hn as [Hn Hd]. split; [eauto|].
    destruct (in_dec str_eq_dec n A); [discriminate|assumption].
  - intros [[t [Ht Hn]] HA]. exists (kept (Some A) t).
    assert (Hk : In n (kept (Some A) t)).
    { unfold kept. apply filter_In. split; [exact Hn|]. destruct (in_dec str_eq_dec n A); [contradiction|reflexivity]. }
    split; [|exact Hk]. apply filter_In. split; [apply in_map; exact Ht|]. destruct (kept (Some A) t); [destruct Hk|reflexivity].
Qed.

Lemma occurs_distinct n log : occurs n log <-> In n (distinct_names log).
Proof. unfold occurs, distinct_names. rewrite nodup_In, in_concat. firstorder. Qed.

Lemma distinct_decreases n log : occurs n log ->
  length (distinct_names (without log [n])) < length (distinct_names log).
Proof.
  intros H. assert (Hn : NoDup (n :: distinct_names (without log [n]))).
  { constructor; [|apply NoDup_nodup]. rewrite <- occurs_distinct, occurs_without. cbn. tauto. }
  apply (NoDup_incl_length Hn). intros m [<-|Hm]; apply occurs_distinct; [exact H|].
  apply occurs_distinct in Hm. apply occurs_without in Hm. tauto.
Qed.

Lemma no_empty_without log A : no_empty_trace (without log A).
Proof. unfold no_empty_trace, without. intros H. apply filter_In in H. destruct H; discriminate. Qed.

Lemma without_nil log : no_empty_trace log -> without log [] = log.
Proof.
  unfold no_empty_trace, without. induction log as [|t log IH]; intros H; [reflexivity|]. cbn [map filter].
  assert (E : kept (Some []) t = t). { unfold kept. clear. induction t as [|n t IH]; [reflexivity|]. cbn. f_equal. exact IH. }
  rewrite E. rewrite IH by (intros Hin; apply H; right; exact Hin).
  destruct t; [exfalso; apply H; left; reflexivity|reflexivity].
Qed.

Lemma no_empty_occurs log : no_empty_trace log -> log <> [] -> exists n, occurs n log.
Proof.
  intros H Hne. destruct log as [|[|n t] log]; [congruence|exfalso; apply H; left; reflexivity|].
  exists n. exists (n :: t). split; left; reflexivity.
Qed.

Lemma no_empty_after ns log : no_empty_trace log -> no_empty_trace (after ns log).
Proof. destruct ns as [|n ns]; [auto|]. intros _. rewrite after_without. apply no_empty_without. Qed.

(* ---- bridge to real event logs ---- *)
Definition name_of (e : event) : pystr := match eget e concept_name with Some (VStr s) => s | _ => [] end.
Definition names_log_of (log : eventlog) : names_log := map (fun t => map name_of (t_events t)) (l_traces log).

Lemma map_filter_names n es : (forall e, In e es -> exists s, named e s) ->
  filterM (fun e => bind (egetitem e concept_name) (fun v => Ok (negb (value_is_str v n)))) es =
  Ok (filter (fun e => negb (str_eqb (name_of e) n)) es).
Proof.
  intros H. apply filterM_ok. intros e He. destruct (H e He) as [s Hs]. unfold named, eget in Hs.
  unfold egetitem, dgetitem, name_of, eget. rewrite Hs. cbn. reflexivity.
Qed.

Lemma map_filter_comm {A B} (f : A -> B) (p : B -> bool) l : map f (filter (fun x => p (f x)) l) = filter p (map f l).
Proof. induction l as [|x l IH]; [reflexivity|]. cbn. destruct (p (f x)); cbn; rewrite IH; reflexivity. Qed.

Lemma removal_bridge_proof log n :
  (forall e, in_log e log -> exists s, named e s) ->
  exists log', remove_event_from_log log n = Ok log' /\
    (forall e, in_log e log' -> exists s, named e s) /\
    names_log_of log' = remove_name (names_log_of log) (Some n).
Proof.
  intros H. unfold remove_event_from_log, filter_events.
  assert (G : forall ts, (forall t e, In t ts -> In e (t_events t) -> exists s, named e s) ->
    exists ts', filter_events_traces (fun e => bind (egetitem e concept_name) (fun v => Ok (negb (value_is_str v n)))) ts = Ok ts' /\
      (forall t e, In t ts' -> In e (t_events t) -> exists s, named e s) /\
      map (fun t => map name_of (t_events t)) ts' =
      remove_name (map (fun t => map name_of (t_events t)) ts) (Some n)).
  { induction ts as [|t ts IH]; intros Hts.
    - exists []. split; [reflexivity|split; [intros t e []|reflexivity]].
    - cbn [filter_events_traces]. rewrite map_filter_names by (intros e He; apply (Hts t); [left; reflexivity|exact He]).
      cbn [bind]. destruct IH as [ts' [E1 [E2 E3]]]; [intros t' e' Ht He; apply (Hts t'); [right; exact Ht|exact He]|].
      rewrite E1. cbn [bind]. eexists. split; [reflexivity|].
      set (fe := filter (fun e => negb (str_eqb (name_of e) n)) (t_events t)).
      assert (Hfe : forall e, In e fe -> exists s, named e s).
      { intros e He. apply filter_In in He. apply (Hts t); [left; reflexivity|tauto]. }
      split.
      + intros t' e' Ht He. destruct (0 <? length fe); [destruct Ht as [<-|Ht]; [apply Hfe; exact He|]|]; eapply E2; eassumption.
      + unfold remove_name in *. cbn [map filter].
        assert (Em : filter (fun m => negb (str_eqb m n)) (map name_of (t_events t)) = map name_of fe)
          by (symmetry; apply (map_filter_comm name_of (fun m => negb (str_eqb m n)))).
        rewrite Em, map_length. destruct (0 <? length fe); cbn [map t_events trace_of_events]; rewrite E3; reflexivity. }
  destruct (G (l_traces log)) as [ts' [E1 [E2 E3]]]; [intros t e Ht He; apply H; exists t; auto|].
  rewrite E1. cbn [bind]. eexists. split; [reflexivity|]. split.
  - intros e [t [Ht He]]. cbn in Ht. eapply E2; eassumption.
  - exact E3.
Qed.

(* ---- maximum ---- *)
Lemma max_item_spec {M} (gtb : M -> M -> bool) d kv : max_item gtb d = Ok kv -> In kv d.
Proof.
  destruct d as [|x d]; [discriminate|]. cbn. intros H. injection H as <-.
  assert (G : forall (d : list (pystr * M)) x, In (fold_left (fun best kv => if gtb (snd kv) (snd best) then kv else best) d x) (x :: d)).
  { clear. induction d as [|y d IH]; intros x; [left; reflexivity|]. cbn [fold_left].
    destruct (gtb (snd y) (snd x)); [right; apply IH|]. destruct (IH x) as [H|H]; [left; exact H|right; right; exact H]. }
  apply G.
Qed.

Lemma max_item_max {M} (gtb : M -> M -> bool) d kv : order_laws gtb -> max_item gtb d = Ok kv ->
  forall kv', In kv' d -> gtb (snd kv') (snd kv) = false.
Proof.
  intros [L1 [L2 L3]]. destruct d as [|x d]; [discriminate|]. cbn. intros H. injection H as <-.
  assert (G : forall (d : list (pystr * M)) x, (forall kv', In kv' (x :: d) -> gtb (snd kv') (snd (fold_left (fun best kv => if gtb (snd kv) (snd best) then kv else best) d x)) = false)).
  { clear d x. induction d as [|y d IH]; intros x kv' Hin.
    - destruct Hin as [<-|[]]. apply L1.
    - cbn [fold_left]. destruct (gtb (snd y) (snd x)) eqn:E.
      + destruct Hin as [<-|Hin]; [|apply IH; exact Hin].
        apply (L2 _ (snd y)); [apply L3; exact E|apply IH; left; reflexivity].
      + destruct Hin as [<-|[<-|Hin]]; [apply IH; left; reflexivity| |apply IH; right; exact Hin].
        apply (L2 _ (snd x)); [exact E|apply IH; left; reflexivity]. }
  apply G.
Qed.

Lemma gtb_trans_false {M} (gtb : M -> M -> bool) a b t : order_laws gtb -> gtb a b = false -> gtb b t = false -> gtb a t = false.
Proof. intros [_ [L _]]. apply L. Qed.

(* ---- direct loop ---- *)
Lemma direct_loop_proof {M} (gtb : M -> M -> bool) metric touchable threshold max :
  order_laws gtb -> metric_ok metric touchable ->
  forall fuel log c, (0 <= c)%Z -> (max <= 0 \/ c < max)%Z -> length (distinct_names log) < fuel ->
  exists r ns, direct_loop gtb metric fuel threshold max log c = Some r /\
    NoDup ns /\ (forall n, In n ns -> occurs n log /\ touchable n) /\
    greedy gtb metric threshold ns log /\
    (0 < max -> c + Z.of_nat (length ns) <= max)%Z /\
    match r with
    | Ok log' => log' = after ns log /\
        (log' = [] \/ (0 < max /\ c + Z.of_nat (length ns) = max)%Z \/
         exists d, metric log' = Ok d /\ d <> [] /\ forall n m, In (n, m) d -> gtb m threshold = false)
    | Err e => e = ValueError /\ after ns log <> [] /\ metric (after ns log) = Ok []
    end.
Proof.
  intros Hord Hm. induction fuel as [|fuel IH]; intros log c Hc Hmax Hf; [lia|].
  cbn [direct_loop]. destruct (Nat.eqb_spec (length log) 0) as [E|E].
  - exists (Ok log), []. assert (log = []) by (destruct log; [reflexivity|discriminate]). subst log.
    split; [reflexivity|]. split; [constructor|]. split; [intros n []|]. split; [intros i n H; destruct i; discriminate|].
    split; [cbn; lia|]. split; [reflexivity|left; reflexivity].
  - assert (Hne : log <> []) by (intros ->; apply E; reflexivity).
    unfold next_direct. destruct (Hm log) as [d [Hd Hkeys]]. rewrite Hd. cbn [bind].
    destruct (max_item gtb d) as [[n m]|e] eqn:Emax.
    2:{ exists (Err e), []. split; [reflexivity|]. split; [constructor|]. split; [intros n []|].
        split; [intros i n H; destruct i; discriminate|]. split; [cbn; lia|].
        destruct d; [injection Emax as <-|discriminate]. cbn. auto. }
    pose proof (max_item_spec gtb d _ Emax) as Hin. pose proof (max_item_max gtb d _ Hord Emax) as Hmx. cbn [snd] in Hmx.
    assert (Hn : occurs n log /\ touchable n). { apply Hkeys. apply in_map_iff. exists (n, m). auto. }
    destruct (gtb m threshold) eqn:Et.
    + cbn zeta. rewrite remove_name_some.
      assert (G : forall ns, (forall x, In x ns -> occurs x (without log [n]) /\ touchable x) -> NoDup ns ->
                greedy gtb metric threshold ns (without log [n]) ->
                NoDup (n :: ns) /\ (forall x, In x (n :: ns) -> occurs x log /\ touchable x) /\ greedy gtb metric threshold (n :: ns) log).
      { intros ns H1 H2 H3. split; [|split].
        - constructor; [|exact H2]. intros Hx. apply H1 in Hx. destruct Hx as [Hx _]. apply occurs_without in Hx. cbn in Hx. tauto.
        - intros x [<-|Hx]; [exact Hn|]. destruct (H1 x Hx) as [H4 H5]. apply occurs_without in H4. tauto.
        - intros i x Hx. destruct i as [|i].
          + cbn in Hx. injection Hx as <-. cbn [firstn after fold_left]. split; [exact Hne|]. exists d, m.
            split; [exact Hd|split; [exact Hin|split; [exact Et|]]]. intros n' m' H'. apply (Hmx (n', m') H').
          + cbn [nth_error] in Hx. apply (H3 i x Hx). }
      destruct (Z.eqb_spec (c + 1) max) as [Eb|Eb].
      * exists (Ok (without log [n])), [n]. split; [reflexivity|].
        destruct (G []) as [G1 [G2 G3]]; [intros x []|constructor|intros i x H; destruct i; discriminate|].
        split; [exact G1|split; [exact G2|split; [exact G3|]]]. split; [cbn; lia|]. split; [reflexivity|]. right; left. cbn; lia.
      * destruct (IH (without log [n]) (c + 1)%Z) as [r [ns [R1 [R2 [R3 [R4 [R5 R6]]]]]]]; [lia|lia| |].
        { destruct Hn as [Hn _]. apply distinct_decreases in Hn. lia. }
        exists r, (n :: ns). destruct (G ns R3 R2 R4) as [G1 [G2 G3]].
        split; [exact R1|split; [exact G1|split; [exact G2|split; [exact G3|]]]].
        split; [intros Hp; specialize (R5 Hp); cbn [length]; lia|].
        destruct r as [log'|e].
        -- destruct R6 as [-> R6]. split; [reflexivity|]. destruct R6 as [R6|[R6|R6]]; [left; exact R6|right; left; cbn [length]; lia|right; right; exact R6].
        -- exact R6.
    + exists (Ok log), []. split; [reflexivity|]. split; [constructor|]. split; [intros x []|].
      split; [intros i x H; destruct i; discriminate|]. split; [cbn; lia|]. split; [reflexivity|]. right; right.
      exists d. split; [exact Hd|split; [destruct d; [discriminate|discriminate]|]].
      intros n' m' H'. apply (gtb_trans_false gtb m' m threshold Hord); [apply (Hmx (n', m') H')|exact Et].
Qed.

(** concrete metrics *)
Lemma remove_untouchable_keys {M} (d : dict pystr M) u n : In n (dkeys (remove_untouchable d u)) <-> In n (dkeys d) /\ u n = false.
Proof.
  unfold remove_untouchable, dkeys. rewrite !in_map_iff. split.
  - intros [[k v] [<- H]]. apply filter_In in H. cbn in *. destruct H as [H1 H2]. split; [exists (k, v); auto|].
    destruct (u k); [discriminate|reflexivity].
  - intros [[[k v] [<- H]] Hu]. exists (k, v). split; [reflexivity|]. apply filter_In. cbn in *. rewrite Hu. auto.
Qed.

Lemma occurs_occurrences n log : occurs n log <-> In n (occurrences log None).
Proof.
  unfold occurs, occurrences. rewrite in_flat_map. split; intros [t [H1 H2]]; exists t; rewrite kept_None in *; auto.
Qed.

Lemma default_metric_eq laplace l :
  exists g, calculate_laplace_or_default_entropies laplace l None = Ok (map (fun n => (n, g n)) (names_of l None)).
Proof.
  unfold calculate_laplace_or_default_entropies. destruct laplace.
  - exists (laplace_value l None). apply laplace_entropies_eq.
  - exists (default_value l None). apply default_entropies_eq.
Qed.

Lemma default_metric_ok laplace u :
  metric_ok (fun l => bind (calculate_laplace_or_default_entropies laplace l None) (fun d => Ok (remove_untouchable d u)))
            (fun n => u n = false).
Proof.
  intros l. destruct (default_metric_eq laplace l) as [g E]. rewrite E. cbn [bind]. eexists. split; [reflexivity|].
  intros n Hn. apply remove_untouchable_keys in Hn. destruct Hn as [Hn Hu]. split; [|exact Hu].
  unfold dkeys in Hn. rewrite map_map, map_id in Hn. apply names_of_In in Hn. apply occurs_occurrences. exact Hn.
Qed.

Lemma pos_metric_ok {F} (finish : list nat -> nat -> F) u :
  metric_ok (fun l => bind (position_entropies_fast finish l None None) (fun d => Ok (remove_untouchable d u)))
            (fun n => u n = false).
Proof.
  intros l. destruct (position_dicts_proof finish l None None I (or_introl eq_refl)) as [E _]. rewrite E. cbn [bind]. eexists. split; [reflexivity|].
  intros n Hn. apply remove_untouchable_keys in Hn. destruct Hn as [Hn Hu]. split; [|exact Hu].
  unfold pos_dict, dkeys in Hn. rewrite map_map, map_id in Hn. apply (names_of_In l None n) in Hn. apply occurs_occurrences. exact Hn.
Qed.

Lemma Rgtb_laws : order_laws Rgtb.
Proof.
  unfold order_laws, Rgtb. split; [|split]; intros *.
  - destruct (Rlt_dec a a); [exfalso; lra|reflexivity].
  - destruct (Rlt_dec b a), (Rlt_dec c b), (Rlt_dec c a); try discriminate; try reflexivity; intros; exfalso; lra.
  - destruct (Rlt_dec b a), (Rlt_dec a b); try discriminate; try reflexivity; intros; exfalso; lra.
Qed.

Lemma direct_outcome_proof {M} (gtb : M -> M -> bool) metric touchable threshold max log fuel :
  order_laws gtb -> metric_ok metric touchable -> length (distinct_names log) < fuel ->
  exists r, direct_loop gtb metric fuel threshold max log 0 = Some r /\
    direct_outcome gtb metric touchable threshold max log r.
Proof.
  intros Ho Hm Hf. destruct (direct_loop_proof gtb metric touchable threshold max Ho Hm fuel log 0%Z) as [r [ns H]]; [lia|lia|exact Hf|].
  exists r. split; [apply H|]. exists ns. apply H.
Qed.

Lemma default_direct_proof fuel log laplace threshold max u :
  length (distinct_names log) < fuel ->
  exists r, filter_events_default_entropy_direct fuel log laplace threshold max u = Some r /\
    direct_outcome Rgtb (fun l => bind (calculate_laplace_or_default_entropies laplace l None) (fun d => Ok (remove_untouchable d u)))
      (fun n => u n = false) threshold max log r.
Proof. intros Hf. apply direct_outcome_proof; [apply Rgtb_laws|apply default_metric_ok|exact Hf]. Qed.

Lemma pos_direct_proof {F} (gtb : F -> F -> bool) finish fuel log threshold max u :
  order_laws gtb -> length (distinct_names log) < fuel ->
  exists r, filter_events_pos_entropy_direct gtb finish fuel log threshold max u = Some r /\
    direct_outcome gtb (fun l => bind (position_entropies_fast finish l None None) (fun d => Ok (remove_untouchable d u)))
      (fun n => u n = false) threshold max log r.
Proof. intros Ho Hf. apply direct_outcome_proof; [exact Ho|apply pos_metric_ok|exact Hf]. Qed.

Lemma fake_free_without log A : fake_free log -> fake_free (without log A).
Proof.
  intros H t Ht. unfold without in Ht. apply filter_In in Ht. destruct Ht as [Ht _]. apply in_map_iff in Ht.
  destruct Ht as [u [<- Hu]]. destruct (H u Hu) as [H1 H2]. split; apply kept_notin; assumption.
Qed.

Lemma fake_free_after ns log : fake_free log -> fake_free (after ns log).
Proof. destruct ns as [|n ns]; [auto|]. rewrite after_without. apply fake_free_without. Qed.

Lemma laplace_zero_threshold_proof fuel log max :
  fake_free log -> no_empty_trace log -> length (distinct_names log) < fuel ->
  (max <= 0 \/ Z.of_nat (length (distinct_names log)) < max)%Z ->
  filter_events_default_entropy_direct fuel log true 0%R max (fun _ => false) = Some (Ok []).
Proof.
  intros Hf He Hfuel Hmax. destruct (default_direct_proof fuel log true 0%R max (fun _ => false) Hfuel) as [r [E [ns [N1 [N2 [N3 [N4 N5]]]]]]].
  rewrite E. f_equal.
  assert (Hd : forall l, fake_free l -> no_empty_trace l -> l <> [] ->
    forall d, bind (calculate_laplace_or_default_entropies true l None) (fun d => Ok (remove_untouchable d (fun _ => false))) = Ok d ->
    exists n m, In (n, m) d /\ Rgtb m 0%R = true).
  { intros l Hl He' Hne d Hd. destruct (no_empty_occurs l He' Hne) as [n Hn].
    cbn [calculate_laplace_or_default_entropies] in Hd. rewrite laplace_entropies_eq in Hd. cbn [bind] in Hd. injection Hd as <-.
    exists n, (laplace_value l None n). apply occurs_occurrences in Hn. split.
    - unfold remove_untouchable. apply filter_In. split; [|reflexivity]. apply in_map_iff. exists n. split; [reflexivity|]. apply names_of_In; exact Hn.
    - unfold Rgtb. pose proof (laplace_value_spec l None n Hl Hn) as [H _]. destruct (Rlt_dec 0 (laplace_value l None n)); [reflexivity|contradiction]. }
  destruct r as [log'|e].
  - destruct N5 as [-> [H|[[H1 H2]|[d [H1 [H2 H3]]]]]]; [rewrite H; reflexivity| |].
    + exfalso. assert (Hle : length ns <= length (distinct_names log)).
      { apply NoDup_incl_length; [exact N1|]. intros n Hn. apply occurs_distinct. apply (N2 n Hn). }
      lia.
    + destruct (after ns log) as [|t l] eqn:Ea; [reflexivity|]. exfalso.
      destruct (Hd (t :: l)) with (d := d) as [n [m [Hin Hg]]]; [rewrite <- Ea; apply fake_free_after; exact Hf|rewrite <- Ea; apply no_empty_after; exact He|discriminate|exact H1|].
      rewrite (H3 n m Hin) in Hg. discriminate.
  - exfalso. destruct N5 as [_ [H1 H2]].
    destruct (Hd (after ns log)) with (d := @nil (pystr * R)) as [n [m [Hin _]]]; [apply fake_free_after; exact Hf|apply no_empty_after; exact He|exact H1|exact H2|destruct Hin].
Qed.
