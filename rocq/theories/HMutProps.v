(** Properties C40 and C49: what the mutations and filters share, change and keep. *)
From Verif Require Import Py PyFacts LogModel MutModel HeapModel HeapSpec CtxModel PipeModel HMutModel HMutSpec HMutProofs HMutCtxProofs.

(** Filtering events gives a new log of new traces that hold the selected event objects themselves;
    it shows the filtered log, and nothing that existed before is changed. *)
Theorem C49_filter_events : forall sel h lg L, closed h -> shows h lg L ->
  exists (ps : list (loc * list (loc * event))) h' r,
    objects h lg (map fst ps) (map (fun p => map fst (snd p)) ps) /\ map t_events (l_traces L) = map (fun p => map snd (snd p)) ps /\
    h_filter_events sel lg h = (h', r) /\ old_kept h h' /\
    match filter_events sel L with
    | Ok L' => exists l' ts', r = Ok (HRef l') /\ next h <= l' /\ shows h' (HRef l') L' /\ Forall (fun x => next h <= x) ts' /\
        objects h' (HRef l') ts' (map (map fst) (filter (fun k => 0 <? length k)
          (map (fun p => filter (fun xe => match sel (snd xe) with Ok b => b | Err _ => false end) (snd p)) ps)))
    | Err e => r = Err e
    end.
Proof. exact filter_events_proof. Qed.
Print Assumptions C49_filter_events.

(** Filtering traces gives a new log that holds the kept trace objects themselves. *)
Theorem C49_filter_traces : forall m h lg L, closed h -> shows h lg L ->
  exists ts ess h' l', objects h lg ts ess /\ h_remove_empty_traces m lg h = (h', Ok (HRef l')) /\ old_kept h h' /\ next h <= l' /\
    shows h' (HRef l') (remove_empty_traces L m) /\
    trace_objects h' (HRef l') (map fst (filter (fun te => (m <? Z.of_nat (length (snd te)))%Z) (combine ts ess))).
Proof. exact remove_empty_traces_proof. Qed.
Print Assumptions C49_filter_traces.

(** Changing events in place: when no event object occurs twice, the log shows what the function on
    values gives, and only dicts of its events have changed (also when the mutator raised). *)
Theorem C49_in_place : forall mut h lg L ts ess, shows h lg L -> objects h lg ts ess -> events_unshared h ess ->
  exists h' r, h_preprocess_events mut lg h = (h', r) /\ next h' = next h /\
    (forall y, (forall ev, In ev (concat ess) -> ~ payload_of h ev y) -> cells h' y = cells h y) /\
    match preprocess_events L mut with Ok L' => r = Ok tt /\ shows h' lg L' | Err e => r = Err e end.
Proof. exact preprocess_proof. Qed.
Print Assumptions C49_in_place.

(** Artificial events: when no trace object occurs twice, every trace gets two new event objects
    around the old ones, in the same trace object, and only the lists of the traces have changed. *)
Theorem C49_artificial : forall h lg L ts ess, closed h -> shows h lg L -> objects h lg ts ess -> traces_unshared h ts ->
  exists h', h_add_artificial lg h = (h', Ok tt) /\ next h <= next h' /\
    (forall y, y < next h -> (forall tr, In tr ts -> ~ list_of h tr y) -> cells h' y = cells h y) /\
    shows h' lg (add_artificial_start_end L) /\
    exists ess', objects h' lg ts ess' /\
      Forall2 (fun es es' => exists s e, next h <= s < next h' /\ next h <= e < next h' /\ s <> e /\ es' = s :: es ++ [e]) ess ess'.
Proof. exact add_artificial_proof. Qed.
Print Assumptions C49_artificial.

(** A heap with one log of two traces: [e0; e1] and [e1], the event object e1 shared. *)
Definition ev_a : event := [(concept_name, VStr (str "a"))].
Definition ev_b : event := [(concept_name, VStr (str "b"))].
Definition shared_heap : heap := mkHeap (fun x =>
  match x with
  | 0 => Some (OLog (HRef 1) (HRef 2) (HRef 2) (HRef 2) (HRef 2) (HRef 2))
  | 1 => Some (OList [HRef 3; HRef 6])
  | 2 => Some (ODict [])
  | 3 => Some (OTrace (HRef 4) (HRef 5))
  | 4 => Some (OList [HRef 8; HRef 10])
  | 5 => Some (ODict [])
  | 6 => Some (OTrace (HRef 7) (HRef 5))
  | 7 => Some (OList [HRef 10])
  | 8 => Some (OEvent (HRef 9))
  | 9 => Some (ODict [(concept_name, HAtom (VStr (str "a")))])
  | 10 => Some (OEvent (HRef 11))
  | 11 => Some (ODict [(concept_name, HAtom (VStr (str "b")))])
  | 12 => Some (OCtx [(str "note", HAtom (VInt 7)); (log_key, HRef 0)])
  | _ => None
  end) 13.
Definition shared_log : eventlog := log_of_traces [trace_of_events [ev_a; ev_b]; trace_of_events [ev_b]].
Definition shared_tree : tree :=
  let ev n := TEvent [(concept_name, TAtom (VStr (str n)))] in
  TLog [TTrace [ev "a"%string; ev "b"%string] []; TTrace [ev "b"%string] []] [] [] [] [] [].
Ltac look := repeat first [apply looks_atom | eapply looks_dict_cons | apply looks_dict_nil | apply looks_all_nil | eapply looks_all_cons | eapply looks_event; [reflexivity|reflexivity|]
  | eapply looks_trace; [reflexivity|reflexivity| |reflexivity|] | eapply looks_log; [reflexivity|reflexivity| |reflexivity| |reflexivity| |reflexivity| |reflexivity| |reflexivity|]].
Lemma shared_shows : shows shared_heap (HRef 0) shared_log.
Proof. exists shared_tree. split; [unfold shared_tree; look|reflexivity]. Qed.
Lemma shared_closed : closed shared_heap.
Proof.
  split.
  - intros l Hl. do 13 (destruct l as [|l]; [cbn in Hl; lia|]). reflexivity.
  - intros l o m Hc Hm. do 13 (destruct l as [|l]; [injection Hc as <-; cbn in *; lia|]). discriminate.
Qed.

(** Decorating names: "b" -> "bb". *)
Definition double (v : value) : result value := match v with VStr s => Ok (VStr (s ++ s)) | _ => Err TypeError end.

(** With an event object that occurs twice, the mutator is applied to it twice. *)
Theorem C49_in_place_shared_refuted : exists mut h lg L L' h', closed h /\ shows h lg L /\ preprocess_events L mut = Ok L' /\
  h_preprocess_events mut lg h = (h', Ok tt) /\ ~ shows h' lg L'.
Proof.
  exists (mut_name double), shared_heap, (HRef 0), shared_log.
  eexists _, _. split; [exact shared_closed|]. split; [exact shared_shows|]. split; [reflexivity|]. split; [vm_compute; reflexivity|].
  intro Hs. apply shows_log in Hs. destruct Hs as (l & t & a & e & c & p & g & [= <-] & Hc & (x & xs & [= <-] & Hl & F) & _). vm_compute in Hc. injection Hc as <- <- <- <- <- <-. vm_compute in Hl. injection Hl as <-.
  inversion F as [|? ? ? ? F1 F2]; subst. clear F2. destruct F1 as (? & le & la & [= <-] & Hc & (? & es & [= <-] & Hcl & Fe) & _). vm_compute in Hc. injection Hc as <- <-. vm_compute in Hcl. injection Hcl as <-.
  inversion Fe as [|? ? ? ? _ Fe2]; subst. inversion Fe2 as [|? ? ? ? Hb _]; subst. destruct Hb as (? & p & [= <-] & Hce & ? & d & [= <-] & Hcd & He). vm_compute in Hce. injection Hce as <-. vm_compute in Hcd. injection Hcd as <-.
  inversion He as [|? ? ? ? [_ Hv] _]; subst. vm_compute in Hv. discriminate.
Qed.
Print Assumptions C49_in_place_shared_refuted.

(** The filtered log is not independent of the original: renaming in it renames there. *)
Theorem C49_filtered_independent_refuted : exists sel mut h lg L h1 l' h2, closed h /\ shows h lg L /\
  h_filter_events sel lg h = (h1, Ok (HRef l')) /\ shows h1 lg L /\ h_preprocess_events mut (HRef l') h1 = (h2, Ok tt) /\ ~ shows h2 lg L.
Proof.
  exists (sel_not_name (str "b")), (mut_name double), shared_heap, (HRef 0), shared_log.
  destruct (C49_filter_events (sel_not_name (str "b")) shared_heap (HRef 0) shared_log shared_closed shared_shows) as (_ & h1 & r & _ & _ & E & [_ K] & _).
  assert (E' : snd (h_filter_events (sel_not_name (str "b")) (HRef 0) shared_heap) = Ok (HRef 19)) by (vm_compute; reflexivity).
  assert (S1 : shows h1 (HRef 0) shared_log).
  { apply (shows_ctx shared_heap); [|exact shared_shows]. intros x o Hx _. rewrite K; [exact Hx|]. eapply cell_lt; [exact (proj1 shared_closed)|exact Hx]. }
  rewrite E in E'. cbn in E'. subst r. exists h1, 19. eexists. split; [exact shared_closed|]. split; [exact shared_shows|]. split; [exact E|]. split; [exact S1|].
  assert (Eh : h1 = fst (h_filter_events (sel_not_name (str "b")) (HRef 0) shared_heap)) by (rewrite E; reflexivity). subst h1. clear. split; [vm_compute; reflexivity|].
  intro Hs. apply shows_log in Hs. destruct Hs as (l & t & a & e & c & p & g & [= <-] & Hc & (x & xs & [= <-] & Hl & F) & _). vm_compute in Hc. injection Hc as <- <- <- <- <- <-. vm_compute in Hl. injection Hl as <-.
  inversion F as [|? ? ? ? F1 F2]; subst. clear F2. destruct F1 as (? & le & la & [= <-] & Hc & (? & es & [= <-] & Hcl & Fe) & _). vm_compute in Hc. injection Hc as <- <-. vm_compute in Hcl. injection Hcl as <-.
  inversion Fe as [|? ? ? ? Hb _]; subst. destruct Hb as (? & p & [= <-] & Hce & ? & d & [= <-] & Hcd & He). vm_compute in Hce. injection Hce as <-. vm_compute in Hcd. injection Hcd as <-.
  inversion He as [|? ? ? ? [_ Hv] _]; subst. vm_compute in Hv. discriminate.
Qed.
Print Assumptions C49_filtered_independent_refuted.

(** A log without sharing meets the hypotheses: one trace of two events. *)
Definition plain_heap : heap := mkHeap (fun x =>
  match x with
  | 0 => Some (OLog (HRef 1) (HRef 2) (HRef 2) (HRef 2) (HRef 2) (HRef 2))
  | 1 => Some (OList [HRef 3])
  | 2 => Some (ODict [])
  | 3 => Some (OTrace (HRef 4) (HRef 5))
  | 4 => Some (OList [HRef 6; HRef 8])
  | 5 => Some (ODict [])
  | 6 => Some (OEvent (HRef 7))
  | 7 => Some (ODict [(concept_name, HAtom (VStr (str "a")))])
  | 8 => Some (OEvent (HRef 9))
  | 9 => Some (ODict [(concept_name, HAtom (VStr (str "b")))])
  | 10 => Some (OCtx [(str "note", HAtom (VInt 7)); (log_key, HRef 0)])
  | _ => None
  end) 11.
Definition plain_log : eventlog := log_of_traces [trace_of_events [ev_a; ev_b]].
Lemma plain_closed : closed plain_heap.
Proof.
  split.
  - intros l Hl. do 11 (destruct l as [|l]; [cbn in Hl; lia|]). reflexivity.
  - intros l o m Hc Hm. do 11 (destruct l as [|l]; [injection Hc as <-; cbn in *; lia|]). discriminate.
Qed.
Lemma plain_shows : shows plain_heap (HRef 0) plain_log.
Proof.
  exists (let ev n := TEvent [(concept_name, TAtom (VStr (str n)))] in TLog [TTrace [ev "a"%string; ev "b"%string] []] [] [] [] [] []).
  split; [look|reflexivity].
Qed.
Example C49_case : closed plain_heap /\ shows plain_heap (HRef 0) plain_log /\ objects plain_heap (HRef 0) [3] [[6; 8]] /\
  events_unshared plain_heap [[6; 8]] /\ traces_unshared plain_heap [3] /\
  preprocess_events plain_log (mut_name double) = Ok (log_of_traces [trace_of_events [[(concept_name, VStr (str "aa"))]; [(concept_name, VStr (str "bb"))]]]) /\
  shows (fst (h_preprocess_events (mut_name double) (HRef 0) plain_heap)) (HRef 0)
    (log_of_traces [trace_of_events [[(concept_name, VStr (str "aa"))]; [(concept_name, VStr (str "bb"))]]]).
Proof.
  assert (Ho : objects plain_heap (HRef 0) [3] [[6; 8]]).
  { split; [repeat eexists|]. constructor; [repeat eexists|constructor]. }
  assert (He : events_unshared plain_heap [[6; 8]]).
  { split; [repeat constructor; cbn; intuition lia|]. intros ev p Hev Hp y o Hy Hin. cbn in Hev. destruct Hev as [<-|[<-|[]]]; vm_compute in Hp; injection Hp as <-; do 11 (destruct y as [|y]; [injection Hy as <-; cbn in Hin; lia|]); discriminate. }
  split; [exact plain_closed|]. split; [exact plain_shows|]. split; [exact Ho|]. split; [exact He|]. split.
  { split; [repeat constructor; cbn; tauto|]. intros tr e Htr [a Hl] y o Hy Hin. cbn in Htr. destruct Htr as [<-|[]]. vm_compute in Hl. injection Hl as <- _. do 11 (destruct y as [|y]; [injection Hy as <-; cbn in Hin; lia|]); discriminate. }
  split; [reflexivity|].
  destruct (C49_in_place (mut_name double) _ _ _ _ _ plain_shows Ho He) as (h' & r & E & _ & _ & M). rewrite E. exact (proj2 M).
Qed.

(** Parts that return the context they got. *)
Theorem C40_keep : forall X,
  (forall p, keeps_context (@RemoveEventsFromLogPredicate X p)) /\
  (forall m, keeps_context (@FilterTracesByCount X m)) /\
  (forall split, (forall l, spares (split l)) -> keeps_context (@FilterTracesByVariants X split)) /\
  (forall subst, (forall t, spares (subst t)) -> keeps_context (@SubstituteUnderlyingEvents X subst)).
Proof.
  intro X. split; [|split; [|split]].
  - intro p. apply same_log_keeps. intro l. apply as_lift, cs_filter_events.
  - intro m. apply same_log_keeps. intro l. apply as_lift, cs_remove_empty.
  - intros split Hs. apply same_log_keeps. apply as_variants. exact Hs.
  - intros subst Hs. apply substitute_keeps. exact Hs.
Qed.
Print Assumptions C40_keep.

(** Parts that change the log in place: the entries of the context are what they were. *)
Theorem C40_in_place : forall X (execute : hv -> act X hv),
  (exists mut, execute = PreprocessEvents mut) \/ (exists cls sel, execute = ApplyClassExtractor cls sel) \/
  execute = RemoveLifecycleTransitionsAttributes \/ execute = AddArtificialStartEndEvents \/
  (exists draw, (forall l, spares (draw l)) /\ execute = DrawTillEnd draw) ->
  forall w w' r c d, closed (w_heap w) -> cells (w_heap w) c = Some (OCtx d) -> execute (HRef c) w = (w', r) ->
  cells (w_heap w') c = Some (OCtx d) /\ forall v, r = Ok v -> v = HRef c.
Proof.
  intros X ex Hex. assert (Hf : exists f : hv -> act X unit, ex = inplace_part f /\ forall l, asafe (f l)).
  { destruct Hex as [[mut ->]|[(cls & sel & ->)|[->|[->|(draw & Hd & ->)]]]]; eexists; (split; [reflexivity|]); intro l; [apply as_lift, cs_preprocess..|apply as_lift, cs_artificial|exact (Hd l)]. }
  destruct Hf as (f & -> & Hf). exact (proj2 (inplace_keeps f Hf)).
Qed.
Print Assumptions C40_in_place.

(** Parts that return a new context with the log only. *)
Theorem C40_replace : forall X,
  (forall n, replaces_context (@RemoveEventFromLogByName X n)) /\
  (forall ns, replaces_context (@RemoveEventsFromLogByNames X ns)) /\
  (forall f, replaces_context (@PreprocessEventsNames X f)) /\
  (forall do_filter, (forall l, spares (do_filter l)) -> replaces_context (@EntropyFilter X do_filter)).
Proof.
  intro X. split; [|split; [|split]].
  - intro n. apply fresh_log_replaces. intro l. apply as_lift, cs_filter_events.
  - intro ns. apply fresh_log_replaces. intro l. apply as_lift, cs_filter_events.
  - intro f. apply preprocess_names_replaces.
  - intros f Hf. apply fresh_log_replaces. exact Hf.
Qed.
Print Assumptions C40_replace.

(** All of them raise ValueError when the context has no log. *)
Theorem C40_no_log : forall X,
  (forall n, needs_log (@RemoveEventFromLogByName X n)) /\ (forall ns, needs_log (@RemoveEventsFromLogByNames X ns)) /\
  (forall p, needs_log (@RemoveEventsFromLogPredicate X p)) /\ (forall f, needs_log (@PreprocessEventsNames X f)) /\
  (forall mut, needs_log (@PreprocessEvents X mut)) /\ (forall cls sel, needs_log (@ApplyClassExtractor X cls sel)) /\
  needs_log (@RemoveLifecycleTransitionsAttributes X) /\ needs_log (@AddArtificialStartEndEvents X) /\
  (forall m, needs_log (@FilterTracesByCount X m)) /\
  (forall split, (forall l, spares (split l)) -> needs_log (@FilterTracesByVariants X split)) /\
  (forall subst, (forall t, spares (subst t)) -> needs_log (@SubstituteUnderlyingEvents X subst)) /\
  (forall do_filter, (forall l, spares (do_filter l)) -> needs_log (@EntropyFilter X do_filter)).
Proof.
  intro X. repeat match goal with |- _ /\ _ => split end; intros.
  1,2: apply fresh_log_replaces; intro; apply as_lift, cs_filter_events.
  1: apply same_log_keeps; intro; apply as_lift, cs_filter_events.
  1: apply preprocess_names_replaces.
  1,2,3: apply inplace_keeps; intro; apply as_lift, cs_preprocess.
  1: apply inplace_keeps; intro; apply as_lift, cs_artificial.
  1: apply same_log_keeps; intro; apply as_lift, cs_remove_empty.
  1: apply same_log_keeps, as_variants; assumption.
  1: apply substitute_keeps; assumption.
  1: apply fresh_log_replaces; assumption.
Qed.
Print Assumptions C40_no_log.

(** The log in the resulting context, removal by name: a new context with a new log; everything that
    existed, the given context included, is as it was. *)
Theorem C40_by_name : forall X n (w : world X) c d lg L, closed (w_heap w) -> cells (w_heap w) c = Some (OCtx d) ->
  dget str_eq_dec d log_key = Some lg -> shows (w_heap w) lg L ->
  exists w' r, RemoveEventFromLogByName n (HRef c) w = (w', r) /\ old_kept (w_heap w) (w_heap w') /\
  match remove_event_from_log L n with
  | Ok L' => exists c' l', r = Ok (HRef c') /\ next (w_heap w) <= c' /\ cells (w_heap w') c' = Some (OCtx [(log_key, HRef l')]) /\ shows (w_heap w') (HRef l') L'
  | Err e => r = Err e end.
Proof. intros X n. exact (fresh_filter_proof (sel_not_name n)). Qed.
Print Assumptions C40_by_name.
Theorem C40_by_names : forall X ns (w : world X) c d lg L, closed (w_heap w) -> cells (w_heap w) c = Some (OCtx d) ->
  dget str_eq_dec d log_key = Some lg -> shows (w_heap w) lg L ->
  exists w' r, RemoveEventsFromLogByNames ns (HRef c) w = (w', r) /\ old_kept (w_heap w) (w_heap w') /\
  match remove_events_from_log L ns with
  | Ok L' => exists c' l', r = Ok (HRef c') /\ next (w_heap w) <= c' /\ cells (w_heap w') c' = Some (OCtx [(log_key, HRef l')]) /\ shows (w_heap w') (HRef l') L'
  | Err e => r = Err e end.
Proof. intros X ns. exact (fresh_filter_proof (sel_not_names ns)). Qed.
Print Assumptions C40_by_names.

(** Removal by predicate and by trace length: the given context with its log replaced. *)
Theorem C40_by_predicate : forall X p (w : world X) c d lg L, closed (w_heap w) -> cells (w_heap w) c = Some (OCtx d) ->
  dget str_eq_dec d log_key = Some lg -> shows (w_heap w) lg L ->
  exists w' r, RemoveEventsFromLogPredicate p (HRef c) w = (w', r) /\
  (forall x, x < next (w_heap w) -> x <> c -> cells (w_heap w') x = cells (w_heap w) x) /\
  match filter_log L p with
  | Ok L' => exists l', r = Ok (HRef c) /\ cells (w_heap w') c = Some (OCtx (dset str_eq_dec d log_key (HRef l'))) /\ shows (w_heap w') (HRef l') L'
  | Err e => r = Err e /\ cells (w_heap w') c = Some (OCtx d) end.
Proof.
  intros X p w c d lg L Hcl Hc Hd Hs. apply (same_filter_proof (h_filter_events (sel_not p)) (filter_log L p) w c d lg Hcl Hc Hd).
  destruct (filter_events_proof (sel_not p) _ _ _ Hcl Hs) as (ps & h' & r & _ & _ & E & K & M). exists h', r. split; [exact E|]. split; [exact K|].
  change (filter_log L p) with (filter_events (sel_not p) L). destruct (filter_events (sel_not p) L); [|exact M]. destruct M as (l' & _ & -> & _ & Sh & _). eauto.
Qed.
Print Assumptions C40_by_predicate.
Theorem C40_by_count : forall X m (w : world X) c d lg L, closed (w_heap w) -> cells (w_heap w) c = Some (OCtx d) ->
  dget str_eq_dec d log_key = Some lg -> shows (w_heap w) lg L ->
  exists w' l', FilterTracesByCount m (HRef c) w = (w', Ok (HRef c)) /\
  (forall x, x < next (w_heap w) -> x <> c -> cells (w_heap w') x = cells (w_heap w) x) /\
  cells (w_heap w') c = Some (OCtx (dset str_eq_dec d log_key (HRef l'))) /\ shows (w_heap w') (HRef l') (remove_empty_traces L m).
Proof.
  intros X m w c d lg L Hcl Hc Hd Hs.
  destruct (same_filter_proof (h_remove_empty_traces m) (Ok (remove_empty_traces L m)) w c d lg Hcl Hc Hd) as (w' & r & E & S & l' & -> & C & Sh).
  - destruct (remove_empty_traces_proof m _ _ _ Hcl Hs) as (ts & ess & h' & l' & _ & E & K & _ & Sh & _). eauto 10.
  - eauto 10.
Qed.
Print Assumptions C40_by_count.

(** Parts that change the log in place: the same log object shows what the function on values gives. *)
Theorem C40_changed_log : forall X (execute : hv -> act X hv) change,
  (execute = RemoveLifecycleTransitionsAttributes /\ change = remove_lifecycle_attribute) \/
  (exists cls sel, execute = ApplyClassExtractor cls sel /\ change = fun L => apply_class_extractor L sel cls) \/
  (exists mut, execute = PreprocessEvents mut /\ change = fun L => preprocess_events L mut) ->
  forall w c d lg L ts ess, cells (w_heap w) c = Some (OCtx d) -> dget str_eq_dec d log_key = Some lg ->
  shows (w_heap w) lg L -> objects (w_heap w) lg ts ess -> events_unshared (w_heap w) ess ->
  exists w' r, execute (HRef c) w = (w', r) /\
  match change L with Ok L' => r = Ok (HRef c) /\ shows (w_heap w') lg L' | Err e => r = Err e end.
Proof.
  intros X ex change Hex w c d lg L ts ess Hc Hd Hs Ho Hu.
  assert (G : exists mut, ex = inplace_part (fun l => lift (h_preprocess_events mut l)) /\ change L = preprocess_events L mut).
  { destruct Hex as [[-> ->]|[(cls & sel & -> & ->)|(mut & -> & ->)]]; eexists; (split; [reflexivity|]); reflexivity. }
  destruct G as (mut & -> & ->). destruct (preprocess_proof mut _ _ _ _ _ Hs Ho Hu) as (h' & r & E & _ & _ & M).
  unfold inplace_part. unfold abind at 1, lift at 1. rewrite (ctx_log_run _ _ _ Hc), Hd. unfold abind, lift. cbn [w_heap w_colors w_rest]. rewrite E.
  destruct (preprocess_events L mut) as [L'|e]; [destruct M as [-> M]|subst r]; eexists _, _; (split; [reflexivity|]); [split; [reflexivity|exact M]|reflexivity].
Qed.
Print Assumptions C40_changed_log.
(** Changing names: the changed log itself, in a new context. *)
Theorem C40_changed_names : forall X f (w : world X) c d lg L ts ess, closed (w_heap w) -> cells (w_heap w) c = Some (OCtx d) ->
  dget str_eq_dec d log_key = Some lg -> shows (w_heap w) lg L -> objects (w_heap w) lg ts ess -> events_unshared (w_heap w) ess ->
  forall L', preprocess_event_names_inplace L f = Ok L' ->
  exists w' c', PreprocessEventsNames f (HRef c) w = (w', Ok (HRef c')) /\ c' <> c /\
    cells (w_heap w') c' = Some (OCtx [(log_key, lg)]) /\ shows (w_heap w') lg L'.
Proof.
  intros X f w c d lg L ts ess Hcl Hc Hd Hs Ho Hu L' HL.
  destruct (preprocess_proof (mut_name f) _ _ _ _ _ Hs Ho Hu) as (h' & r & E & N & K & M).
  change (preprocess_events L (mut_name f)) with (preprocess_event_names_inplace L f) in M. rewrite HL in M. destruct M as [-> M].
  unfold PreprocessEventsNames. unfold abind at 1, lift at 1. rewrite (ctx_log_run _ _ _ Hc), Hd. unfold abind at 1, lift at 1. cbn [w_heap w_colors w_rest]. rewrite E.
  destruct (cs_preprocess _ _ _ _ _ (proj1 Hcl) E) as (A1 & N1 & K1).
  destruct (new_ctx_run h' A1) as (h2 & E2 & C2 & A2 & N2 & S2). unfold abind, lift. cbn [w_heap w_colors w_rest]. rewrite E2. cbn [w_heap w_colors w_rest].
  rewrite (with_value_run _ _ _ _ _ C2). eexists _, (next h'). split; [reflexivity|]. pose proof (cell_lt _ _ _ (proj1 Hcl) Hc) as Hlt.
  split; [lia|]. cbn [w_heap]. split; [cbn; unfold upd; destruct (Nat.eq_dec (next h') (next h')); [reflexivity|contradiction]|].
  eapply shows_ctx_poke; [exact C2|]. apply (shows_ctx h'); [|exact M]. intros x o Hx _. rewrite S2 by (eapply cell_lt; eauto). exact Hx.
Qed.
Print Assumptions C40_changed_names.

Definition plain_world : world unit := mkWorld plain_heap [] tt.
Example C40_case : closed (w_heap plain_world) /\ cells (w_heap plain_world) 10 = Some (OCtx [(str "note", HAtom (VInt 7)); (log_key, HRef 0)]) /\
  (let '(w', r) := RemoveEventFromLogByName (str "a") (HRef 10) plain_world in
   r = Ok (HRef 11) /\ cells (w_heap w') 11 = Some (OCtx [(log_key, HRef 18)])) /\
  (let '(w', r) := RemoveEventsFromLogPredicate (fun e => Ok true) (HRef 10) plain_world in
   r = Ok (HRef 10) /\ cells (w_heap w') 10 = Some (OCtx [(str "note", HAtom (VInt 7)); (log_key, HRef 17)])) /\
  spares (lift (X := unit) (ret tt)).
Proof.
  split; [exact plain_closed|]. split; [reflexivity|]. split; [vm_compute; split; reflexivity|]. split; [vm_compute; split; reflexivity|]. apply as_lift, cs_ret.
Qed.

Example C40_changed_case : exists w' c' w2, PreprocessEventsNames double (HRef 10) plain_world = (w', Ok (HRef c')) /\ c' <> 10 /\
  cells (w_heap w') c' = Some (OCtx [(log_key, HRef 0)]) /\
  shows (w_heap w') (HRef 0) (log_of_traces [trace_of_events [[(concept_name, VStr (str "aa"))]; [(concept_name, VStr (str "bb"))]]]) /\
  PreprocessEvents (mut_name double) (HRef 10) plain_world = (w2, Ok (HRef 10)) /\
  shows (w_heap w2) (HRef 0) (log_of_traces [trace_of_events [[(concept_name, VStr (str "aa"))]; [(concept_name, VStr (str "bb"))]]]).
Proof.
  destruct C49_case as (Hc & Hs & Ho & He & _ & Hp & _).
  destruct (C40_changed_names _ double plain_world 10 _ (HRef 0) plain_log _ _ Hc eq_refl eq_refl Hs Ho He _ Hp) as (w' & c' & A & B & C & D).
  destruct (C40_changed_log unit (PreprocessEvents (mut_name double)) (fun L => preprocess_events L (mut_name double))
    (or_intror (or_intror (ex_intro _ (mut_name double) (conj eq_refl eq_refl)))) plain_world 10 _ (HRef 0) plain_log _ _ eq_refl eq_refl Hs Ho He) as (w2 & r & E & M).
  rewrite Hp in M. destruct M as [-> M]. exists w', c', w2. repeat (split; [assumption|]). assumption.
Qed.

(** The branches of a parallel pipeline share the log: a branch that changes it in place is seen by
    the next branch and through the input, although the entries of the input are as they were. *)
Definition log_length_part : part unit := Prim (fun c => abind (lift (ctx_log c)) (fun l => abind (lift (log_traces l)) (fun ts =>
  match ts with t :: _ => abind (lift (trace_events t)) (fun es => aret (HAtom (VInt (Z.of_nat (length es))))) | [] => aret (HAtom (VInt 0)) end))).
Theorem C38_shared_log_refuted : exists (p q : list (part unit)) c w w1 w2 d r1 r2,
  closed (w_heap w) /\ cells (w_heap w) c = Some (OCtx d) /\
  exec_part (Parallel [p; q]) (HRef c) w = (w1, r1) /\ exec_part (Parallel [q]) (HRef c) w = (w2, r2) /\ r1 <> r2 /\
  cells (w_heap w1) c = Some (OCtx d) /\
  exists L, shows (w_heap w) (HRef 0) L /\ dget str_eq_dec d log_key = Some (HRef 0) /\ ~ shows (w_heap w1) (HRef 0) L.
Proof.
  exists [Prim AddArtificialStartEndEvents], [log_length_part], 10, plain_world. do 5 eexists.
  split; [exact plain_closed|]. split; [reflexivity|]. split; [vm_compute; reflexivity|]. split; [vm_compute; reflexivity|]. split; [discriminate|]. split; [reflexivity|].
  exists plain_log. split; [exact plain_shows|]. split; [reflexivity|].
  intro Hs. apply shows_log in Hs. destruct Hs as (l & t & a & e & c & p & g & [= <-] & Hc & (x & xs & [= <-] & Hl & F) & _). vm_compute in Hc. injection Hc as <- <- <- <- <- <-. vm_compute in Hl. injection Hl as <-.
  inversion F as [|? ? ? ? F1 F2]; subst. clear F2. destruct F1 as (? & le & la & [= <-] & Hc & (? & es & [= <-] & Hcl & Fe) & _). vm_compute in Hc. injection Hc as <- <-. vm_compute in Hcl. injection Hcl as <-.
  inversion Fe as [|? ? ? ? _ Fe1]; subst. inversion Fe1 as [|? ? ? ? _ Fe2]; subst. inversion Fe2.
Qed.
Print Assumptions C38_shared_log_refuted.
