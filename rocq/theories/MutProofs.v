From Coq Require Import Permutation.
From Verif Require Import Py PyFacts LogModel MutModel MutSpec.

(** Exception free version used as proof device. *)
Definition pure_filter (g : event -> bool) (ts : list trace) : list trace :=
  filter (fun t => 0 <? length (t_events t))
         (map (fun t => trace_of_events (filter g (t_events t))) ts).
Arguments pure_filter : simpl never.

Lemma pure_filter_cons g t ts :
  pure_filter g (t :: ts) =
  (if 0 <? length (filter g (t_events t)) then [trace_of_events (filter g (t_events t))] else [])
  ++ pure_filter g ts.
Proof.
  unfold pure_filter; cbn [map filter trace_of_events t_events].
  destruct (0 <? length (filter g (t_events t))); reflexivity.
Qed.


Lemma filter_events_traces_ok sel g ts :
  (forall t e, In t ts -> In e (t_events t) -> sel e = Ok (g e)) ->
  filter_events_traces sel ts = Ok (pure_filter g ts).
Proof.
  induction ts as [|t ts IH]; intros H; cbn; [reflexivity|].
  rewrite (filterM_ok sel g) by (intros e He; apply (H t); [left; reflexivity|assumption]); cbn.
  rewrite IH by (intros t' e' Ht He; apply (H t'); [right; assumption|assumption]); cbn.
  rewrite pure_filter_cons.
  destruct (filter g (t_events t)); reflexivity.
Qed.

Lemma filter_events_ok sel g log :
  (forall e, in_log e log -> sel e = Ok (g e)) ->
  filter_events sel log = Ok (log_of_traces (pure_filter g (l_traces log))).
Proof.
  intros H. unfold filter_events.
  rewrite (filter_events_traces_ok sel g); [reflexivity|].
  intros t e Ht He; apply H; exists t; auto.
Qed.

Lemma Deleted_filter {A} (P : A -> Prop) (g : A -> bool) l :
  (forall x, In x l -> (g x = true <-> ~ P x)) ->
  (forall x, In x l -> P x \/ ~ P x) ->
  Deleted P l (filter g l).
Proof.
  induction l as [|x l IH]; intros Hg Hd; cbn; [constructor|].
  assert (IHl : Deleted P l (filter g l)).
  { apply IH; intros; [apply Hg|apply Hd]; right; assumption. }
  destruct (Hg x (or_introl eq_refl)) as [H1 H2].
  destruct (Hd x (or_introl eq_refl)) as [Hp|Hp].
  - destruct (g x) eqn:E; [exfalso; apply H1; auto|]. constructor; assumption.
  - rewrite (H2 Hp). constructor; assumption.
Qed.

Lemma TracesDeleted_pure P g ts :
  (forall t e, In t ts -> In e (t_events t) -> (g e = true <-> ~ P e)) ->
  (forall t e, In t ts -> In e (t_events t) -> P e \/ ~ P e) ->
  TracesDeleted P ts (pure_filter g ts).
Proof.
  induction ts as [|t ts IH]; intros Hg Hd; [constructor|].
  assert (Hdel : Deleted P (t_events t) (filter g (t_events t))).
  { apply Deleted_filter; intros x Hx; [apply (Hg t)|apply (Hd t)]; auto using in_eq. }
  assert (IHt : TracesDeleted P ts (pure_filter g ts)).
  { apply IH; intros t' e' Ht He; [apply (Hg t')|apply (Hd t')]; auto using in_cons. }
  rewrite pure_filter_cons.
  destruct (filter g (t_events t)) as [|e es] eqn:E; cbn [length Nat.ltb Nat.leb app].
  - apply TD_gone; assumption.
  - apply TD_kept; [assumption|discriminate|assumption].
Qed.

(* -- names -- *)
Lemma egetitem_has e : has_name e -> exists v, egetitem e concept_name = Ok v /\ eget e concept_name = Some v.
Proof. intros [v Hv]. exists v. unfold egetitem, dgetitem, eget in *. rewrite Hv; auto. Qed.

Definition name_is (e : event) (n : pystr) : bool :=
  match eget e concept_name with Some v => value_is_str v n | None => false end.

Lemma value_is_str_spec v s : value_is_str v s = true <-> v = VStr s.
Proof.
  destruct v; cbn; try (split; intros; discriminate).
  rewrite str_eqb_eq; split; intros; congruence.
Qed.

Lemma name_is_spec e n : name_is e n = true <-> named e n.
Proof.
  unfold name_is, named. destruct (eget e concept_name) as [v|].
  - rewrite value_is_str_spec; split; congruence.
  - split; discriminate.
Qed.

Lemma named_dec e n : named e n \/ ~ named e n.
Proof. rewrite <- name_is_spec. destruct (name_is e n); auto. Qed.

Lemma remove_event_sel e n :
  has_name e ->
  bind (egetitem e concept_name) (fun v => Ok (negb (value_is_str v n))) = Ok (negb (name_is e n)).
Proof.
  intros H. destruct (egetitem_has e H) as [v [E1 E2]]. rewrite E1; cbn.
  unfold name_is; rewrite E2; reflexivity.
Qed.

Lemma remove_event_pure log n :
  (forall e, in_log e log -> has_name e) ->
  remove_event_from_log log n
  = Ok (log_of_traces (pure_filter (fun e => negb (name_is e n)) (l_traces log))).
Proof.
  intros H. apply filter_events_ok. intros e He. apply remove_event_sel; auto.
Qed.

Lemma remove_event_exact_proof log n :
  (forall e, in_log e log -> has_name e) ->
  exists log', remove_event_from_log log n = Ok log' /\
    TracesDeleted (fun e => named e n) (l_traces log) (l_traces log') /\ no_metadata log'.
Proof.
  intros H. rewrite remove_event_pure by assumption. eexists; split; [reflexivity|].
  split; [|repeat split].
  apply TracesDeleted_pure.
  - intros t e Ht He. rewrite negb_true_iff, <- not_true_iff_false, name_is_spec. tauto.
  - intros; apply named_dec.
Qed.

(* error branch *)
Lemma filterM_err {A} (f : A -> result bool) l ex :
  (forall x, In x l -> (exists b, f x = Ok b) \/ f x = Err ex) ->
  (exists x, In x l /\ f x = Err ex) -> filterM f l = Err ex.
Proof.
  induction l as [|x l IH]; intros Ha [y [Hy Hf]]; [contradiction|]. cbn.
  destruct (Ha x (or_introl eq_refl)) as [[b Hb]|Hb]; rewrite Hb; cbn; [|reflexivity].
  destruct Hy as [->|Hy]; [congruence|].
  rewrite IH; [reflexivity| |eauto]. intros; apply Ha; right; assumption.
Qed.

Lemma filterM_cases {A} (f : A -> result bool) l ex :
  (forall x, In x l -> (exists b, f x = Ok b) \/ f x = Err ex) ->
  (exists ys, filterM f l = Ok ys) \/ filterM f l = Err ex.
Proof.
  induction l as [|x l IH]; intros Ha; cbn; [eauto|].
  destruct (Ha x (or_introl eq_refl)) as [[b Hb]|Hb]; rewrite Hb; cbn; [|auto].
  destruct IH as [[ys Hy]|Hy]; [intros; apply Ha; right; assumption| |]; rewrite Hy; cbn; eauto.
Qed.

Lemma filter_events_traces_err sel ts ex :
  (forall t e, In t ts -> In e (t_events t) -> (exists b, sel e = Ok b) \/ sel e = Err ex) ->
  (exists t e, In t ts /\ In e (t_events t) /\ sel e = Err ex) ->
  filter_events_traces sel ts = Err ex.
Proof.
  induction ts as [|t ts IH]; intros Ha [t' [e [Ht [He Hs]]]]; [contradiction|]. cbn.
  destruct (filterM_cases sel (t_events t) ex) as [[ys Hy]|Hy].
  - intros x Hx; apply (Ha t); auto using in_eq.
  - rewrite Hy; cbn. destruct Ht as [->|Ht].
    + rewrite filterM_err with (ex := ex) in Hy; [discriminate| |eauto].
      intros x Hx; apply (Ha t'); auto using in_eq.
    + rewrite IH; [reflexivity| |eauto 6].
      intros t'' e'' H1 H2; apply (Ha t''); auto using in_cons.
  - rewrite Hy; reflexivity.
Qed.

Lemma eget_cases e k : (exists v, egetitem e k = Ok v /\ eget e k = Some v) \/
                       (egetitem e k = Err KeyError /\ eget e k = None).
Proof.
  unfold egetitem, dgetitem, eget. destruct (dget str_eq_dec e k) as [v|]; eauto.
Qed.

Lemma remove_event_error_proof log n :
  (exists e, in_log e log /\ ~ has_name e) -> remove_event_from_log log n = Err KeyError.
Proof.
  intros [e [[t [Ht He]] Hn]]. unfold remove_event_from_log, filter_events.
  rewrite filter_events_traces_err with (ex := KeyError); [reflexivity| |].
  - intros t' e' _ _. destruct (eget_cases e' concept_name) as [[v [Hv _]]|[Hv _]]; rewrite Hv; cbn; eauto.
  - exists t, e. repeat split; auto.
    destruct (eget_cases e concept_name) as [[v [_ Hv]]|[Hv _]]; [exfalso; apply Hn; eexists; eassumption|].
    rewrite Hv; reflexivity.
Qed.

(* consequences stated without the relation *)
Lemma in_pure_filter g ts t :
  In t (pure_filter g ts) <->
  exists t0, In t0 ts /\ t = trace_of_events (filter g (t_events t0)) /\ t_events t <> [].
Proof.
  unfold pure_filter. rewrite filter_In, in_map_iff, Nat.ltb_lt. split.
  - intros [[t0 [<- H]] Hl]. exists t0. repeat split; auto. cbn in *. intros E; rewrite E in Hl; cbn in Hl; lia.
  - intros [t0 [H [-> Hne]]]. split; [eauto|]. cbn in *. destruct (filter g (t_events t0)); [congruence|cbn; lia].
Qed.

Lemma in_log_pure g log e :
  in_log e (log_of_traces (pure_filter g (l_traces log))) <-> in_log e log /\ g e = true.
Proof.
  unfold in_log; cbn. split.
  - intros [t [Ht He]]. apply in_pure_filter in Ht. destruct Ht as [t0 [H0 [-> _]]].
    cbn in He. apply filter_In in He. destruct He; split; [eauto|assumption].
  - intros [[t [Ht He]] Hg]. exists (trace_of_events (filter g (t_events t))).
    assert (Hin : In e (filter g (t_events t))) by (apply filter_In; auto).
    split; [|exact Hin]. apply in_pure_filter. exists t; repeat split; auto.
    cbn. intros E; rewrite E in Hin; contradiction.
Qed.

Lemma count_app {A} (f : A -> bool) l1 l2 : count f (l1 ++ l2) = count f l1 + count f l2.
Proof. unfold count. rewrite filter_app, app_length; reflexivity. Qed.

Lemma concat_pure_filter g ts :
  concat (map t_events (pure_filter g ts)) = filter g (concat (map t_events ts)).
Proof.
  induction ts as [|t ts IH]; [reflexivity|].
  cbn [map concat]. rewrite filter_app, <- IH.
  rewrite pure_filter_cons.
  destruct (filter g (t_events t)); reflexivity.
Qed.

Lemma filter_filter_and {A} (f g : A -> bool) l :
  filter f (filter g l) = filter (fun x => g x && f x) l.
Proof.
  induction l as [|x l IH]; cbn; [reflexivity|].
  destruct (g x); cbn; [destruct (f x)|]; rewrite IH; reflexivity.
Qed.

Lemma remove_event_counts_proof log log' n f :
  remove_event_from_log log n = Ok log' ->
  (forall e, in_log e log -> has_name e) ->
  (forall e, named e n -> f e = false) ->
  count_log f log' = count_log f log.
Proof.
  intros H Hn Hf. rewrite remove_event_pure in H by assumption. injection H as <-.
  unfold count_log, count; cbn. rewrite concat_pure_filter, filter_filter_and.
  f_equal. apply filter_ext. intros e.
  destruct (name_is e n) eqn:E; cbn; [|reflexivity].
  symmetry; apply Hf, name_is_spec, E.
Qed.

Lemma remove_event_gone_proof log log' n :
  remove_event_from_log log n = Ok log' ->
  (forall e, in_log e log' -> ~ named e n /\ in_log e log) /\
  (forall e, in_log e log -> ~ named e n -> in_log e log') /\
  (forall t, In t (l_traces log') -> t_events t <> []).
Proof.
  intros H.
  assert (Hn : forall e, in_log e log -> has_name e).
  { intros e He. destruct (eget e concept_name) as [v|] eqn:E; [eexists; eassumption|].
    rewrite remove_event_error_proof in H; [discriminate|].
    exists e; split; [assumption|]. intros [v Hv]; congruence. }
  rewrite remove_event_pure in H by assumption. injection H as <-.
  split; [|split].
  - intros e He. apply in_log_pure in He. destruct He as [He Hg]. split; [|assumption].
    rewrite <- name_is_spec. destruct (name_is e n); [discriminate|congruence].
  - intros e He Hne. apply in_log_pure. split; [assumption|].
    rewrite <- name_is_spec in Hne. destruct (name_is e n); [exfalso; apply Hne; reflexivity|reflexivity].
  - cbn. intros t Ht. apply in_pure_filter in Ht. destruct Ht as [t0 [_ [_ Hne]]]; exact Hne.
Qed.

(* C02 *)
Lemma pure_filter_ext g h ts :
  (forall t e, In t ts -> In e (t_events t) -> g e = h e) -> pure_filter g ts = pure_filter h ts.
Proof.
  intros H. unfold pure_filter. f_equal. apply map_ext_in. intros t Ht. f_equal.
  apply filter_ext_in. intros e He; eauto.
Qed.

Lemma pure_filter_pure_filter g h ts :
  pure_filter h (pure_filter g ts) = pure_filter (fun e => g e && h e) ts.
Proof.
  induction ts as [|t ts IH]; [reflexivity|].
  rewrite !(pure_filter_cons _ t ts), <- filter_filter_and, <- IH.
  destruct (filter g (t_events t)) as [|e es] eqn:E; cbn [length Nat.ltb Nat.leb app].
  - reflexivity.
  - rewrite pure_filter_cons. reflexivity.
Qed.

Lemma in_log_named_pure g log :
  (forall e, in_log e log -> has_name e) ->
  forall e, in_log e (log_of_traces (pure_filter g (l_traces log))) -> has_name e.
Proof. intros H e He. apply in_log_pure in He. apply H; tauto. Qed.

Lemma remove_events_pure log names :
  (forall e, in_log e log -> has_name e) ->
  remove_events_from_log log names
  = Ok (log_of_traces (pure_filter (fun e => negb (existsb (name_is e) names)) (l_traces log))).
Proof.
  intros H. apply filter_events_ok. intros e He.
  destruct (egetitem_has e (H e He)) as [v [E1 E2]]. rewrite E1; cbn [bind].
  assert (E3 : existsb (value_is_str v) names = existsb (name_is e) names).
  { induction names as [|n ns IH]; cbn; [reflexivity|]. rewrite IH.
    unfold name_is at 2; rewrite E2; reflexivity. }
  rewrite E3; reflexivity.
Qed.

Lemma remove_events_fold_proof log n names :
  (forall e, in_log e log -> has_name e) ->
  foldM remove_event_from_log (n :: names) log = remove_events_from_log log (n :: names).
Proof.
  revert log n; induction names as [|m names IH]; intros log n H.
  - cbn [foldM bind]. rewrite remove_event_pure, remove_events_pure by assumption. cbn [bind].
    do 2 f_equal. apply pure_filter_ext. intros; cbn. rewrite orb_false_r; reflexivity.
  - cbn [foldM bind]. rewrite remove_event_pure by assumption. cbn [bind].
    change (foldM remove_event_from_log (m :: names)
              (log_of_traces (pure_filter (fun e => negb (name_is e n)) (l_traces log)))
            = remove_events_from_log log (n :: m :: names)).
    rewrite IH by (apply in_log_named_pure; assumption).
    rewrite !remove_events_pure by (try apply in_log_named_pure; assumption).
    cbn [log_of_traces l_traces]. rewrite pure_filter_pure_filter.
    do 2 f_equal. apply pure_filter_ext. intros; cbn. rewrite !negb_orb; reflexivity.
Qed.

Lemma filterM_ext {A} (f g : A -> result bool) l :
  (forall x, f x = g x) -> filterM f l = filterM g l.
Proof.
  intros H. induction l as [|x l IH]; [reflexivity|]. cbn. rewrite H, IH. reflexivity.
Qed.

Lemma filter_events_traces_ext f g ts :
  (forall e, f e = g e) -> filter_events_traces f ts = filter_events_traces g ts.
Proof.
  intros H. induction ts as [|t ts IH]; [reflexivity|]. cbn.
  rewrite IH, (filterM_ext f g) by exact H. reflexivity.
Qed.

Lemma remove_events_perm_proof log names names' :
  (forall n, In n names <-> In n names') ->
  remove_events_from_log log names = remove_events_from_log log names'.
Proof.
  intros Hp. unfold remove_events_from_log, filter_events. f_equal.
  assert (E : forall v, existsb (value_is_str v) names = existsb (value_is_str v) names').
  { intros v. apply eq_true_iff_eq. rewrite !existsb_exists.
    split; intros [x [Hx Hv]]; exists x; (split; [apply Hp; exact Hx|exact Hv]). }
  apply filter_events_traces_ext. intros e.
  destruct (egetitem e concept_name); cbn; [rewrite E|]; reflexivity.
Qed.

Lemma filter_log_pure log p g :
  (forall e, in_log e log -> p e = Ok (g e)) ->
  filter_log log p = Ok (log_of_traces (pure_filter (fun e => negb (g e)) (l_traces log))).
Proof. intros H. apply filter_events_ok. intros e He. rewrite H by assumption. reflexivity. Qed.

Lemma filter_log_exact_proof log p g :
  (forall e, in_log e log -> p e = Ok (g e)) ->
  exists log', filter_log log p = Ok log' /\
    TracesDeleted (fun e => g e = true) (l_traces log) (l_traces log') /\ no_metadata log'.
Proof.
  intros H. rewrite (filter_log_pure log p g) by assumption. eexists; split; [reflexivity|].
  split; [|repeat split]. apply TracesDeleted_pure.
  - intros t e _ _. destruct (g e); cbn; split; congruence.
  - intros t e _ _. destruct (g e); auto.
Qed.

Lemma filter_log_twice_proof log p q g h :
  (forall e, in_log e log -> p e = Ok (g e)) ->
  (forall e, in_log e log -> q e = Ok (h e)) ->
  bind (filter_log log p) (fun l => filter_log l q)
  = filter_log log (fun e => bind (p e) (fun b => bind (q e) (fun c => Ok (b || c)))).
Proof.
  intros Hp Hq. rewrite (filter_log_pure log p g) by assumption. cbn [bind].
  rewrite (filter_log_pure _ q h) by (intros e He; apply Hq; apply in_log_pure in He; tauto).
  rewrite (filter_log_pure log _ (fun e => g e || h e)).
  - cbn. rewrite pure_filter_pure_filter. do 2 f_equal. apply pure_filter_ext.
    intros; rewrite negb_orb; reflexivity.
  - intros e He. rewrite Hp, Hq by assumption. reflexivity.
Qed.

Lemma remove_event_idem_proof log log' n :
  remove_event_from_log log n = Ok log' -> remove_event_from_log log' n = Ok log'.
Proof.
  intros H.
  assert (Hn : forall e, in_log e log -> has_name e).
  { intros e He. destruct (eget e concept_name) as [v|] eqn:E; [eexists; eassumption|].
    rewrite remove_event_error_proof in H; [discriminate|].
    exists e; split; [assumption|]. intros [v Hv]; congruence. }
  rewrite remove_event_pure in H by assumption. injection H as <-.
  rewrite remove_event_pure by (apply in_log_named_pure; assumption).
  cbn. rewrite pure_filter_pure_filter. do 2 f_equal. apply pure_filter_ext.
  intros; rewrite andb_diag; reflexivity.
Qed.

Lemma remove_event_comm_proof log n m :
  bind (remove_event_from_log log n) (fun l => remove_event_from_log l m)
  = bind (remove_event_from_log log m) (fun l => remove_event_from_log l n).
Proof.
  assert (Hc : (forall e, in_log e log -> has_name e) \/ exists e, in_log e log /\ ~ has_name e).
  { unfold in_log. induction (l_traces log) as [|t ts IH].
    - left. intros e [t [[] _]].
    - destruct IH as [IH|[e [[t' [Ht He]] Hn]]]; [|right; exists e; split; [exists t'; cbn; auto|assumption]].
      assert (Ht : (forall e, In e (t_events t) -> has_name e) \/ exists e, In e (t_events t) /\ ~ has_name e).
      { induction (t_events t) as [|e es IHe]; [left; intros ? []|].
        destruct IHe as [IHe|[e' [H1 H2]]]; [|right; exists e'; cbn; auto].
        destruct (eget e concept_name) as [v|] eqn:E.
        - left. intros e' [<-|He']; [eexists; eassumption|auto].
        - right. exists e; split; [left; reflexivity|]. intros [v Hv]; congruence. }
      destruct Ht as [Ht|[e [H1 H2]]].
      + left. intros e [t' [[<-|Hin] He]]; [auto|]. apply IH; eauto.
      + right. exists e; split; [|assumption]. exists t; cbn; auto. }
  destruct Hc as [H|H].
  - rewrite !remove_event_pure by assumption. cbn [bind].
    rewrite !remove_event_pure by (apply in_log_named_pure; assumption).
    cbn. rewrite !pure_filter_pure_filter. do 2 f_equal. apply pure_filter_ext.
    intros; apply andb_comm.
  - rewrite !remove_event_error_proof by assumption. reflexivity.
Qed.

(* C03 *)
Lemma remove_empty_traces_proof log m :
  Deleted (fun t => (Z.of_nat (length (t_events t)) <= m)%Z)
          (l_traces log) (l_traces (remove_empty_traces log m))
  /\ no_metadata (remove_empty_traces log m).
Proof.
  split; [|repeat split]. cbn. apply Deleted_filter; intros t _.
  - rewrite Z.ltb_lt. lia.
  - lia.
Qed.

Lemma preprocess_events_ok log mut f :
  (forall e, in_log e log -> mut e = Ok (f e)) ->
  preprocess_events log mut
  = Ok (with_traces log (map (fun t => mkTrace (map f (t_events t)) (t_attrs t)) (l_traces log))).
Proof.
  intros H. unfold preprocess_events.
  rewrite (mapM_ok _ (fun t => mkTrace (map f (t_events t)) (t_attrs t))); [reflexivity|].
  intros t Ht. rewrite (mapM_ok mut f); [reflexivity|].
  intros e He; apply H; exists t; auto.
Qed.

Lemma Forall2_map_r {A B} (R : A -> B -> Prop) (f : A -> B) l :
  (forall x, In x l -> R x (f x)) -> Forall2 R l (map f l).
Proof.
  induction l as [|x l IH]; intros H; cbn; constructor.
  - apply H; left; reflexivity.
  - apply IH; intros; apply H; right; assumption.
Qed.

Lemma preprocess_shape (R : event -> event -> Prop) log mut f :
  (forall e, in_log e log -> mut e = Ok (f e)) ->
  (forall e, in_log e log -> R e (f e)) ->
  exists log', preprocess_events log mut = Ok log' /\ SameShape R log log'.
Proof.
  intros H HR. rewrite (preprocess_events_ok log mut f) by assumption.
  eexists; split; [reflexivity|]. split; [|repeat split].
  cbn. apply Forall2_map_r. intros t Ht. cbn. split; [reflexivity|].
  apply Forall2_map_r. intros e He. apply HR. exists t; auto.
Qed.

Lemma preprocess_names_proof log f :
  (forall e, in_log e log -> has_name e) ->
  exists log', preprocess_event_names_inplace log (fun v => Ok (f v)) = Ok log' /\
    SameShape (fun e e' =>
       (forall v, eget e concept_name = Some v -> eget e' concept_name = Some (f v)) /\
       (forall k, k <> concept_name -> eget e' k = eget e k) /\
       map fst e' = map fst e) log log'.
Proof.
  intros H.
  apply preprocess_shape with (f := fun e => match eget e concept_name with
                                             | Some v => eset e concept_name (f v) | None => e end).
  - intros e He. destruct (egetitem_has e (H e He)) as [v [E1 E2]]. rewrite E1; cbn [bind]. rewrite E2; reflexivity.
  - intros e He. destruct (egetitem_has e (H e He)) as [v [E1 E2]]. rewrite E2. split; [|split].
    + intros v' Hv'. injection Hv' as <-. apply dget_dset_same.
    + intros k Hk. unfold eget, eset. apply dget_dset_other. congruence.
    + unfold eset. change (map fst) with (@dkeys pystr value). rewrite dkeys_dset.
      unfold dmem. unfold eget in E2. rewrite E2. reflexivity.
Qed.

Lemma remove_lifecycle_proof log :
  (forall e, in_log e log -> NoDup (map fst e)) ->
  exists log', remove_lifecycle_attribute log = Ok log' /\
    SameShape (fun e e' =>
       eget e' lifecycle_transition = None /\
       (forall k, k <> lifecycle_transition -> eget e' k = eget e k)) log log'.
Proof.
  intros H.
  apply preprocess_shape with (f := fun e => if ehas e lifecycle_transition then edel e lifecycle_transition else e).
  - reflexivity.
  - intros e He. unfold ehas, dmem, edel, eget. destruct (dget str_eq_dec e lifecycle_transition) as [v|] eqn:E.
    + split.
      * rewrite dget_ddel by (apply H; assumption).
        destruct (str_eq_dec lifecycle_transition lifecycle_transition); congruence.
      * intros k Hk. rewrite dget_ddel by (apply H; assumption).
        destruct (str_eq_dec lifecycle_transition k); congruence.
    + split; auto.
Qed.

Lemma apply_class_extractor_proof log sel cls :
  exists log', apply_class_extractor log (fun e => Ok (sel e)) (fun e => Ok (cls e)) = Ok log' /\
    SameShape (fun e e' =>
       (sel e = true -> named e' (cls e) /\ forall k, k <> concept_name -> eget e' k = eget e k) /\
       (sel e = false -> e' = e)) log log'.
Proof.
  apply preprocess_shape with (f := fun e => if sel e then eset e concept_name (VStr (cls e)) else e).
  - intros e _. cbn. destruct (sel e); reflexivity.
  - intros e _. destruct (sel e); split; try discriminate; [|reflexivity].
    intros _. split; [apply dget_dset_same|]. intros k Hk. apply dget_dset_other. congruence.
Qed.

Lemma artificial_proof log :
  let log' := add_artificial_start_end log in
  Forall2 (fun t t' => t_attrs t' = t_attrs t /\
             t_events t' = [[(concept_name, VStr (str "ARTIFICIAL_START"))]] ++ t_events t
                           ++ [[(concept_name, VStr (str "ARTIFICIAL_END"))]])
          (l_traces log) (l_traces log') /\
  l_attrs log' = l_attrs log /\ l_extensions log' = l_extensions log /\
  l_classifiers log' = l_classifiers log /\ l_properties log' = l_properties log /\
  l_globals log' = l_globals log.
Proof.
  cbn zeta. split; [|repeat split].
  cbn [add_artificial_start_end with_traces l_traces]. apply Forall2_map_r.
  intros t _. split; reflexivity.
Qed.
