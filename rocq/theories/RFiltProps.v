(** C72: filters, variants and changes of events in the backend. *)
From Coq Require Import Sorting.Sorted Permutation Lia.
From Verif Require Import Py PyFacts ReplayModel RPipeModel RFiltModel RFiltSpec RFiltProofs.
From Verif Require SufModel.

(** The filter by a name removes exactly the events of that name and then the traces without events. *)
Theorem C72_filter_name : forall P cfg (l : list (list (fevent P))) names n, ff_event_name cfg = Some n ->
  name_part cfg (mkFCtx (Some l) names) = Ok (mkFCtx (Some (without (fun e => str_eqb (fe_name e) n) l)) names).
Proof.
  intros P cfg l names n H. unfold name_part, with_log, filter_log_by_name. cbn [fx_log fx_names need bind]. rewrite H. cbn [need bind].
  rewrite (filter_events_ok _ (fun e => str_eqb (fe_name e) n)) by reflexivity. reflexivity.
Qed.
Print Assumptions C72_filter_name.

(** The same for a set of names. *)
Theorem C72_filter_names : forall P (l : list (list (fevent P))) names,
  filter_log_by_names l names = Ok (without (fun e => if in_dec str_eq_dec (fe_name e) names then true else false) l).
Proof.
  intros P l names. unfold filter_log_by_names. apply filter_events_ok. intros t x _ _. f_equal.
  destruct (in_dec str_eq_dec (fe_name x) names) as [H|H].
  - apply existsb_exists. exists (fe_name x). split; [exact H|]. unfold str_eqb. destruct (str_eq_dec _ _); congruence.
  - apply Bool.not_true_iff_false. intros E. apply existsb_exists in E as (y & Hy & Ey). unfold str_eqb in Ey.
    destruct (str_eq_dec (fe_name x) y); [subst|discriminate]. contradiction.
Qed.
Print Assumptions C72_filter_names.

(** The filter by a regex: the same for the events whose name matches; a text which is no regex is an error; when matching
    fails for one name of the log, the part panics. *)
Theorem C72_filter_regex : forall P compile cfg (l : list (list (fevent P))) names text, ff_regex cfg = Some text ->
  regex_part compile cfg (mkFCtx (Some l) names) =
  match compile text with
  | None => Err ValueError
  | Some rx =>
      if existsb (existsb (fun e => match rx_match rx (fe_name e) with None => true | _ => false end)) l then rpanic
      else Ok (mkFCtx (Some (without (fun e => match rx_match rx (fe_name e) with Some b => b | None => false end) l)) names)
  end.
Proof.
  intros P compile cfg l names text H. unfold regex_part, with_log, parse. cbn [fx_log fx_names need bind]. rewrite H. cbn [need bind].
  destruct (compile text) as [rx|]; [|reflexivity]. cbn [bind]. unfold filter_log_by_regex.
  destruct (existsb _ l) eqn:E.
  - rewrite (filter_events_panic _ (fun e => rx_match rx (fe_name e))); [reflexivity|reflexivity|].
    apply existsb_exists in E as (t & Ht & E). apply existsb_exists in E as (e & He & E). exists t, e. split; [exact Ht|]. split; [exact He|].
    destruct (rx_match rx (fe_name e)); [discriminate|reflexivity].
  - rewrite (filter_events_ok _ (fun e => match rx_match rx (fe_name e) with Some b => b | None => false end)); [reflexivity|].
    intros t e Ht He. destruct (rx_match rx (fe_name e)) eqn:Em; [reflexivity|]. exfalso.
    apply Bool.not_true_iff_false in E. apply E, existsb_exists. exists t. split; [exact Ht|]. apply existsb_exists. exists e. split; [exact He|]. now rewrite Em.
Qed.
Print Assumptions C72_filter_regex.

(** In which order two names are filtered out makes no difference; filtering twice is filtering once. *)
Theorem C72_filters_commute : forall P (l : list (list (fevent P))) a b,
  bind (filter_log_by_name l a) (fun l => filter_log_by_name l b) = bind (filter_log_by_name l b) (fun l => filter_log_by_name l a) /\
  bind (filter_log_by_name l a) (fun l => filter_log_by_name l a) = filter_log_by_name l a /\
  bind (filter_log_by_name l a) (fun l => filter_log_by_name l b) = filter_log_by_names l [a; b].
Proof.
  intros P l a b.
  assert (H : forall l n, @filter_log_by_name P l n = Ok (without (fun e => str_eqb (fe_name e) n) l)) by (intros; apply filter_events_ok; reflexivity).
  assert (Hext : forall p q (l : list (list (fevent P))), (forall e, p e = q e) -> without p l = without q l).
  { intros p q l0 E. unfold without. f_equal. apply map_ext. intros t. apply filter_ext. intros e. now rewrite E. }
  rewrite !H. cbn [bind]. rewrite !H, !without_twice. split; [f_equal; apply Hext; intros; apply Bool.orb_comm|].
  split; [f_equal; apply Hext; intros; apply Bool.orb_diag|].
  unfold filter_log_by_names. symmetry. rewrite (filter_events_ok _ (fun e => str_eqb (fe_name e) a || (str_eqb (fe_name e) b || false))%bool) by reflexivity.
  f_equal. apply Hext. intros. now rewrite Bool.orb_false_r.
Qed.
Print Assumptions C72_filters_commute.

(** A name which does not occur changes nothing, if no trace was empty before. *)
Theorem C72_filter_absent_name : forall P (l : list (list (fevent P))) n,
  (forall t e, In t l -> In e t -> fe_name e <> n) -> (forall t, In t l -> t <> []) -> filter_log_by_name l n = Ok l.
Proof.
  intros P l n H Hne. unfold filter_log_by_name. rewrite (filter_events_ok _ (fun e => str_eqb (fe_name e) n)) by reflexivity. f_equal.
  unfold without. rewrite (map_ext_in _ (fun t => t)).
  - rewrite map_id. apply GroupFacts.filter_all. intros t Ht. specialize (Hne t Ht). destruct t; congruence.
  - intros t Ht. apply GroupFacts.filter_all. intros e He. unfold str_eqb. destruct (str_eq_dec (fe_name e) n) as [E|E]; [|reflexivity].
    exfalso. exact (H t e Ht He E).
Qed.
Print Assumptions C72_filter_absent_name.

(** Traces which had no events before are lost as well. *)
Theorem C72_filter_keeps_other_traces_refuted : exists (l : list (list (fevent unit))) n t,
  In t l /\ (forall e, In e t -> fe_name e <> n) /\ forall l', filter_log_by_name l n = Ok l' -> ~ In t l'.
Proof.
  exists [[]; [mkFE (str "a") 0%Z tt]], (str "b"), []. split; [left; reflexivity|]. split; [intros e []|].
  intros l' E. vm_compute in E. injection E as <-. intros [E|[]]. discriminate.
Qed.
Print Assumptions C72_filter_keeps_other_traces_refuted.

(** The filter by the number of events keeps exactly the traces with at least that number, in their order. *)
Theorem C72_filter_count : forall P cfg (l : list (list (fevent P))) names n, ff_count cfg = Some n ->
  count_part cfg (mkFCtx (Some l) names) = Ok (mkFCtx (Some (filter (fun t => n <=? length t) l)) names).
Proof.
  intros P cfg l names n H. unfold count_part, with_log. cbn [fx_log fx_names need bind]. rewrite H. cbn [need bind].
  rewrite filter_traces_by. do 3 f_equal. apply filter_ext. intros t. rewrite Nat.ltb_antisym, Bool.negb_involutive. reflexivity.
Qed.
Print Assumptions C72_filter_count.

(** Removing traces by a condition on the trace and its place: exactly those which meet it, whatever the condition. *)
Theorem C72_filter_traces : forall A (pred : A -> nat -> bool) (l : list A),
  exists places, StronglySorted lt places /\ map (nth_error l) places = map Some (filter_traces pred l) /\
    forall i, In i places <-> exists x, nth_error l i = Some x /\ pred x i = false.
Proof.
  intros A pred l. exists (map fst (filter (fun p => negb (pred (snd p) (fst p))) (numbered 0 l))).
  split; [apply numbered_filter_sorted|]. rewrite filter_traces_spec. split.
  - rewrite !map_map. apply map_ext_in. intros [i x] H. apply filter_In in H as [H _]. apply numbered_In in H as [_ H].
    rewrite Nat.sub_0_r in H. exact H.
  - intros i. rewrite in_map_iff. split.
    + intros ([j x] & <- & H). apply filter_In in H as [H E]. apply numbered_In in H as [_ H]. rewrite Nat.sub_0_r in H. cbn in *.
      exists x. split; [exact H|]. now apply Bool.negb_true_iff.
    + intros (x & H & E). exists (i, x). split; [reflexivity|]. apply filter_In. split; [apply numbered_In; rewrite Nat.sub_0_r; auto with arith|].
      cbn. now rewrite E.
Qed.
Print Assumptions C72_filter_traces.

(** The groups of traces: the result is always there, it does not depend on the order of the hash tables, and two traces are
    in one group iff the hashes of their names are the same at every place. *)
Theorem C72_groups : forall P text_hash ord (l : list (list (fevent P))), any_orders ord ->
  exists groups, groups_indices text_hash ord l = Ok groups /\ grouping (map (fun e => text_hash (fe_name e))) l groups.
Proof. intros P text_hash ord l H. apply (groups_indices_ok text_hash ord H l). Qed.
Print Assumptions C72_groups.

Theorem C72_groups_independent : forall P text_hash ord1 ord2 (l : list (list (fevent P))), any_orders ord1 -> any_orders ord2 ->
  groups_indices text_hash ord1 l = groups_indices text_hash ord2 l.
Proof.
  intros P text_hash ord1 ord2 l H1 H2. destruct (groups_indices_ok text_hash ord1 H1 l) as (G1 & -> & A1).
  destruct (groups_indices_ok text_hash ord2 H2 l) as (G2 & -> & A2). f_equal. eapply grouping_unique; eassumption.
Qed.
Print Assumptions C72_groups_independent.

(** With hashes which tell the names of the log apart, the groups are the variants, and no other groups are. *)
Theorem C72_groups_are_variants : forall P text_hash ord (l : list (list (fevent P))), any_orders ord ->
  (forall t u a b, In t l -> In u l -> In a t -> In b u -> text_hash (fe_name a) = text_hash (fe_name b) -> fe_name a = fe_name b) ->
  forall groups, groups_indices text_hash ord l = Ok groups <-> grouping (map fe_name) l groups.
Proof.
  intros P text_hash ord l H Hh groups. destruct (groups_indices_ok text_hash ord H l) as (G & -> & HG).
  assert (K : forall x y, In x l -> In y l -> (trace_key text_hash x = trace_key text_hash y <-> map fe_name x = map fe_name y)).
  { intros x y Hx Hy. unfold trace_key. split.
    - intros E. assert (Hxy : forall a b, In a x -> In b y -> text_hash (fe_name a) = text_hash (fe_name b) -> fe_name a = fe_name b) by (intros a b Ha Hb; apply (Hh x y a b Hx Hy Ha Hb)).
      clear - E Hxy. revert y E Hxy. induction x as [|a x IH]; intros [|b y] E Hxy; try discriminate; [reflexivity|]. cbn in *.
      injection E as E1 E2. f_equal; [apply Hxy; auto|]. apply IH; [exact E2|]. intros; apply Hxy; auto.
    - intros E. rewrite <- (map_map fe_name text_hash), E, map_map. reflexivity. }
  assert (HG' : grouping (map fe_name) l G).
  { destruct HG as [a b c d]. constructor; auto. intros i j x y Hx Hy. rewrite (b i j x y Hx Hy). apply K; eapply nth_error_In; eassumption. }
  split.
  - intros E. injection E as <-. exact HG'.
  - intros HG2. f_equal. eapply grouping_unique; eassumption.
Qed.
Print Assumptions C72_groups_are_variants.

(** The traces themselves, split into the same groups. *)
Theorem C72_split : forall P text_hash ord (l : list (list (fevent P))), any_orders ord ->
  exists groups parts, groups_indices text_hash ord l = Ok groups /\ split_by_traces text_hash ord l = Ok parts /\
    map (map Some) parts = map (map (nth_error l)) groups.
Proof.
  intros P text_hash ord l H. destruct (split_ok text_hash ord H l) as (G & _ & E1 & E2 & HG).
  exists (map (map fst) G), (map (map snd) G). split; [exact E1|]. split; [exact E2|]. rewrite !map_map. apply map_ext_in. intros g Hg.
  rewrite !map_map. apply map_ext_in. intros p Hp. symmetry. apply HG with g; assumption.
Qed.
Print Assumptions C72_split.

(** The filter by variants keeps the first trace of each variant, in order; it needs hashes which tell names apart. *)
Theorem C72_variants : forall P text_hash ord cfg (l : list (list (fevent P))) names, any_orders ord ->
  (forall t u a b, In t l -> In u l -> In a t -> In b u -> text_hash (fe_name a) = text_hash (fe_name b) -> fe_name a = fe_name b) ->
  exists kept, variants_part text_hash ord cfg (mkFCtx (Some l) names) = Ok (mkFCtx (Some kept) names) /\
    kept = first_of_each (list_eq_dec str_eq_dec) (map fe_name) [] l /\
    NoDup (map (map fe_name) kept) /\ forall t, In t l -> In (map fe_name t) (map (map fe_name) kept).
Proof.
  intros P text_hash ord cfg l names H Hh. exists (first_of_each (list_eq_dec str_eq_dec) (map fe_name) [] l). split.
  - rewrite (variants_part_ok text_hash ord H). do 3 f_equal.
    apply (first_of_each_ext _ _ _ _ l [] [] []); [|reflexivity|reflexivity]. cbn [app]. intros x y Hx Hy. unfold trace_key. split.
    + intros E. assert (Hxy : forall a b, In a x -> In b y -> text_hash (fe_name a) = text_hash (fe_name b) -> fe_name a = fe_name b) by (intros a b Ha Hb; apply (Hh x y a b Hx Hy Ha Hb)).
      clear - E Hxy. revert y E Hxy. induction x as [|a x IH]; intros [|b y] E Hxy; try discriminate; [reflexivity|]. cbn in *.
      injection E as E1 E2. f_equal; [apply Hxy; auto|]. apply IH; [exact E2|]. intros; apply Hxy; auto.
    + intros E. rewrite <- (map_map fe_name text_hash), E, map_map. reflexivity.
  - split; [reflexivity|]. split; [apply first_of_each_NoDup|]. intros t Ht. apply first_of_each_all; [exact Ht|intros []].
Qed.
Print Assumptions C72_variants.

(** For any hash: the first trace of each sequence of hashes; a second run changes nothing. *)
Theorem C72_variants_of_hashes : forall P text_hash ord cfg (l : list (list (fevent P))) names, any_orders ord ->
  exists kept, variants_part text_hash ord cfg (mkFCtx (Some l) names) = Ok (mkFCtx (Some kept) names) /\
    kept = first_of_each (list_eq_dec N.eq_dec) (map (fun e => text_hash (fe_name e))) [] l /\
    variants_part text_hash ord cfg (mkFCtx (Some kept) names) = Ok (mkFCtx (Some kept) names).
Proof.
  intros P text_hash ord cfg l names H. eexists. split; [apply (variants_part_ok text_hash ord H)|]. split; [reflexivity|].
  rewrite (variants_part_ok text_hash ord H). do 3 f_equal. apply first_of_each_id; [apply first_of_each_NoDup|intros x _ []].
Qed.
Print Assumptions C72_variants_of_hashes.

(** There is no hash of 64 bits for which every variant of every log is kept. *)
Theorem C72_every_variant_kept_refuted : forall (text_hash : pystr -> N) ord, (forall s, (text_hash s < 2 ^ 64)%N) -> any_orders ord ->
  exists (l : list (list (fevent unit))) t kept,
    variants_part text_hash ord (mkFCfg None None None None) (mkFCtx (Some l) None) = Ok (mkFCtx (Some kept) None) /\
    In t l /\ ~ In (map fe_name t) (map (map fe_name) kept).
Proof.
  intros text_hash ord Hh H.
  destruct (pigeons (fun i => text_hash (repeat 0%N i)) (N.to_nat (2 ^ 64))) as (i & j & Hij & E).
  { intros i. rewrite N2Nat.id. apply Hh. }
  set (ev := fun i => [mkFE (repeat 0%N i) 0%Z tt]).
  assert (Hkeep : first_of_each (list_eq_dec N.eq_dec) (trace_key text_hash) [] [ev i; ev j] = [ev i]).
  { cbn [first_of_each]. destruct (in_dec _ (trace_key text_hash (ev i)) []) as [[]|_].
    destruct (in_dec _ (trace_key text_hash (ev j)) [trace_key text_hash (ev i)]) as [_|Hn]; [reflexivity|].
    exfalso. apply Hn. left. unfold trace_key, ev. cbn [map fe_name]. rewrite E. reflexivity. }
  exists [ev i; ev j], (ev j), [ev i]. split; [rewrite (variants_part_ok text_hash ord H), Hkeep; reflexivity|].
  split; [right; left; reflexivity|]. intros [Eq|[]]. unfold ev in Eq. cbn [map fe_name] in Eq. injection Eq as Eq.
  apply (f_equal (@length N)) in Eq. rewrite !repeat_length in Eq. lia.
Qed.
Print Assumptions C72_every_variant_kept_refuted.

(** Artificial events: one in front of every trace, one behind it, with the ends of time, and nothing else changes. *)
Theorem C72_start_end : forall P no_rest min_utc max_utc start stop cfg (l : list (list (fevent P))) names,
  exists l', start_end_part no_rest min_utc max_utc start stop cfg (mkFCtx (Some l) names) = Ok (mkFCtx (Some l') names) /\
    Forall2 (fun t t' => exists a b, t' = a ++ t ++ b /\
      map fe_name a = (if start then [str "ARTIFICIAL_START"] else []) /\ map fe_name b = (if stop then [str "ARTIFICIAL_END"] else []) /\
      (forall e, In e a -> fe_time e = min_utc) /\ (forall e, In e b -> fe_time e = max_utc)) l l'.
Proof.
  intros. unfold start_end_part, with_log. cbn [fx_log fx_names need bind]. eexists. split; [reflexivity|].
  unfold add_start_end. induction l as [|t l IH]; cbn [map]; constructor; [|exact IH].
  exists (if start then [at_min no_rest min_utc (str "ARTIFICIAL_START")] else []), (if stop then [at_max no_rest max_utc (str "ARTIFICIAL_END")] else []).
  split; [destruct start, stop; cbn [app]; rewrite ?app_nil_r; reflexivity|]. split; [destruct start; reflexivity|]. split; [destruct stop; reflexivity|].
  split; [destruct start|destruct stop]; intros e He; try destruct He as [<-|[]]; try destruct He; reflexivity.
Qed.
Print Assumptions C72_start_end.

(** Renaming changes the names of the selected events and nothing else. *)
Theorem C72_rename : forall P (l : list (list (fevent P))) name (sel : fevent P -> bool),
  Forall2 (Forall2 (fun e e' => fe_time e' = fe_time e /\ fe_rest e' = fe_rest e /\ fe_name e' = if sel e then name else fe_name e)) l (rename_events l name sel).
Proof.
  intros. unfold rename_events. induction l as [|t l IH]; cbn [map]; constructor; [|exact IH].
  induction t as [|e t IHt]; cbn [map]; constructor; [|exact IHt]. destruct (sel e); auto.
Qed.
Print Assumptions C72_rename.

(** Names taken out and put back: the same names, seconds apart from the beginning of time; the rest of the events is lost. *)
Theorem C72_names_round_trip : forall P no_rest min_utc cfg (l : list (list (fevent P))) names,
  exists c l', get_names_part cfg (mkFCtx (Some l) names) = Ok c /\ fx_log c = Some l /\ fx_names c = Some (map (map fe_name) l) /\
    use_names_part no_rest min_utc cfg c = Ok (mkFCtx (Some l') (fx_names c)) /\ map (map fe_name) l' = map (map fe_name) l /\
    forall t i e, In t l' -> nth_error t i = Some e -> fe_time e = (min_utc + Z.of_nat i)%Z /\ fe_rest e = no_rest.
Proof.
  intros. unfold get_names_part, use_names_part. cbn [fx_log need bind]. eexists. exists (map (dated no_rest min_utc) (map (map fe_name) l)).
  split; [reflexivity|]. split; [reflexivity|]. split; [reflexivity|]. split; [reflexivity|].
  assert (D : forall ns d, map fe_name (dated no_rest d ns) = ns) by (induction ns as [|n ns IH]; intros d; cbn; [reflexivity|now rewrite IH]).
  split; [rewrite map_map; rewrite <- (map_id (map (map fe_name) l)) at 2; apply map_ext; intros; apply D|].
  intros t i e Ht. apply in_map_iff in Ht as (ns & <- & _). clear D. revert i min_utc.
  induction ns as [|n ns IH]; intros [|i] d He; cbn in He; try discriminate.
  - injection He as <-. cbn. split; [lia|reflexivity].
  - apply IH in He as [E1 E2]. split; [rewrite E1; lia|exact E2].
Qed.
Print Assumptions C72_names_round_trip.

(** The class extractor: an event whose name matches the filter gets what the other regex finds at the beginning of its name
    (nothing found: it keeps it; found elsewhere or failed: it keeps it), and nothing else of any event changes. *)
Theorem C72_class_extractor : forall P compile cfg (l : list (list (fevent P))) names r c rx cx,
  ff_regex cfg = Some r -> ff_class cfg = Some c -> compile r = Some rx -> compile c = Some cx ->
  (forall t e, In t l -> In e t -> rx_match rx (fe_name e) <> None) ->
  exists l', class_part compile cfg (mkFCtx (Some l) names) = Ok (mkFCtx (Some l') names) /\
    Forall2 (Forall2 (fun e e' => fe_time e' = fe_time e /\ fe_rest e' = fe_rest e /\
      (forall n, rx_match rx (fe_name e) = Some true -> rx_find cx (fe_name e) = Some (Some (0, n)) -> fe_name e' = firstn n (fe_name e)) /\
      (fe_name e' <> fe_name e -> rx_match rx (fe_name e) = Some true /\ exists n, rx_find cx (fe_name e) = Some (Some (0, n))))) l l'.
Proof.
  intros P compile cfg l names r c rx cx Er Ec Hr Hc Hm. unfold class_part, with_log, parse. cbn [fx_log fx_names need bind].
  rewrite Ec. cbn [need bind]. rewrite Hc. cbn [bind]. rewrite Er. cbn [need bind]. rewrite Hr. cbn [bind].
  assert (E1 : forall e : fevent P, rx_match rx (fe_name e) <> None -> exists e', extract_class rx cx e = Ok e' /\ fe_time e' = fe_time e /\ fe_rest e' = fe_rest e /\
      (forall n, rx_match rx (fe_name e) = Some true -> rx_find cx (fe_name e) = Some (Some (0, n)) -> fe_name e' = firstn n (fe_name e)) /\
      (fe_name e' <> fe_name e -> rx_match rx (fe_name e) = Some true /\ exists n, rx_find cx (fe_name e) = Some (Some (0, n)))).
  { intros e H. unfold extract_class. destruct (rx_match rx (fe_name e)) as [b|]; [|congruence]. cbn [SufModel.unwrap bind].
    destruct b; cbn [negb]; [|exists e; repeat split; congruence].
    destruct (rx_find cx (fe_name e)) as [[[s k]|]|].
    - destruct (Nat.eqb_spec s 0) as [->|Hs].
      + eexists. split; [reflexivity|]. cbn. rewrite Nat.sub_0_r. repeat split; intros; try congruence. eauto.
      + exists e. repeat split; congruence.
    - cbn [Nat.eqb]. eexists. split; [reflexivity|]. cbn. rewrite Nat.sub_0_r, firstn_all. repeat split; congruence.
    - exists e. repeat split; congruence. }
  match goal with |- context [mapM ?f l] => set (F := f) end.
  enough (exists l', mapM F l = Ok l' /\ Forall2 (Forall2 (fun e e' => fe_time e' = fe_time e /\ fe_rest e' = fe_rest e /\
      (forall n, rx_match rx (fe_name e) = Some true -> rx_find cx (fe_name e) = Some (Some (0, n)) -> fe_name e' = firstn n (fe_name e)) /\
      (fe_name e' <> fe_name e -> rx_match rx (fe_name e) = Some true /\ exists n, rx_find cx (fe_name e) = Some (Some (0, n))))) l l')
    as (l' & -> & HF) by (exists l'; split; [reflexivity|exact HF]).
  induction l as [|t l IH]; [exists []; split; [reflexivity|constructor]|].
  destruct IH as (l' & E & HF); [intros; eapply Hm; [right; eassumption|assumption]|]. cbn [mapM]. rewrite E.
  assert (exists t', F t = Ok t' /\ Forall2 (fun e e' => fe_time e' = fe_time e /\ fe_rest e' = fe_rest e /\
      (forall n, rx_match rx (fe_name e) = Some true -> rx_find cx (fe_name e) = Some (Some (0, n)) -> fe_name e' = firstn n (fe_name e)) /\
      (fe_name e' <> fe_name e -> rx_match rx (fe_name e) = Some true /\ exists n, rx_find cx (fe_name e) = Some (Some (0, n)))) t t') as (t' & Et & Ht).
  { assert (Hm' := fun e => Hm t e (or_introl eq_refl)). clear - E1 Hm'. unfold F. induction t as [|e t IH]; [exists []; split; [reflexivity|constructor]|].
    destruct IH as (t' & E & HF); [intros; apply Hm'; right; assumption|]. destruct (E1 e (Hm' e (or_introl eq_refl))) as (e' & Ee & He).
    cbn [mapM]. rewrite Ee. cbn [bind]. rewrite E. cbn [bind]. exists (e' :: t'). split; [reflexivity|constructor; assumption]. }
  rewrite Et. cbn [bind]. exists (t' :: l'). split; [reflexivity|constructor; assumption].
Qed.
Print Assumptions C72_class_extractor.

(** Errors of the class extractor in their order; nothing is renamed before both texts are regexes. *)
Theorem C72_class_extractor_errors : forall P compile cfg (l : list (list (fevent P))) names,
  class_part compile cfg (mkFCtx None names) = @missing (@filt_context P) /\
  (ff_class cfg = None -> class_part compile cfg (mkFCtx (Some l) names) = missing) /\
  (forall c, ff_class cfg = Some c -> compile c = None -> class_part compile cfg (mkFCtx (Some l) names) = Err ValueError) /\
  (forall c cx, ff_class cfg = Some c -> compile c = Some cx -> ff_regex cfg = None -> class_part compile cfg (mkFCtx (Some l) names) = missing) /\
  (forall c cx r, ff_class cfg = Some c -> compile c = Some cx -> ff_regex cfg = Some r -> compile r = None ->
     class_part compile cfg (mkFCtx (Some l) names) = Err ValueError).
Proof.
  intros. unfold class_part, with_log, parse. cbn [fx_log fx_names need bind]. split; [reflexivity|].
  split; [intros ->; reflexivity|]. split; [intros c -> Hc; cbn [need bind]; rewrite Hc; reflexivity|].
  split; [intros c cx -> Hc ->; cbn [need bind]; rewrite Hc; reflexivity|].
  intros c cx r -> Hc -> Hr. cbn [need bind]. rewrite Hc. cbn [bind]. rewrite Hr. reflexivity.
Qed.
Print Assumptions C72_class_extractor_errors.

(** What a trace knows about its names when first asked (new, copied): how often each occurs and where. *)
Theorem C72_trace_info : forall P (h : holder P), eh_info h = None -> eh_positions h = None ->
  (snd (snd (get_info h)) = length (eh_events h) /\
   forall n, dget str_eq_dec (fst (snd (get_info h))) n =
     if occurrences (map fe_name (eh_events h)) n =? 0 then None else Some (occurrences (map fe_name (eh_events h)) n)) /\
  (forall n i, (exists l, dget str_eq_dec (snd (get_positions h)) n = Some l /\ In i l) <-> is_place_of (map fe_name (eh_events h)) n i) /\
  eh_events (fst (get_info h)) = eh_events h /\ eh_events (fst (get_positions h)) = eh_events h.
Proof.
  intros P h E1 E2. unfold get_info, get_positions. rewrite E1, E2. cbn [fst snd eh_events]. split; [|split; [|auto]].
  - split; [reflexivity|]. intros n. rewrite info_counts. reflexivity.
  - intros n i. apply positions_spec.
Qed.
Print Assumptions C72_trace_info.

Theorem C72_trace_info_of_copy : forall P (h : holder P),
  snd (get_info (clone_holder h)) = sequence_info (eh_events h) /\ snd (get_positions (clone_holder h)) = events_positions (eh_events h).
Proof. intros. split; reflexivity. Qed.
Print Assumptions C72_trace_info_of_copy.

(** Once asked, a trace gives the same answer for ever, whatever happens to its events... *)
Theorem C72_trace_info_for_ever : forall P (h : holder P) (changes : list (list (fevent P) -> list (fevent P))),
  snd (get_info (fold_left (fun h f => change_events f h) changes (fst (get_info h)))) = snd (get_info h) /\
  snd (get_positions (fold_left (fun h f => change_events f h) changes (fst (get_positions h)))) = snd (get_positions h).
Proof.
  intros P h changes.
  assert (G : forall h, eh_info (fold_left (fun h f => change_events f h) changes h) = eh_info h /\
                        eh_positions (fold_left (fun h f => change_events f h) changes h) = eh_positions h).
  { induction changes as [|f r IH]; intros h0; cbn [fold_left]; [auto|]. destruct (IH (change_events f h0)) as [-> ->]. auto. }
  split.
  - unfold get_info at 1. destruct (G (fst (get_info h))) as [-> _].
    unfold get_info. destruct (eh_info h) as [i|] eqn:E; cbn [fst snd eh_info]; [rewrite E|]; reflexivity.
  - unfold get_positions at 1. destruct (G (fst (get_positions h))) as [_ ->].
    unfold get_positions. destruct (eh_positions h) as [i|] eqn:E; cbn [fst snd eh_positions]; [rewrite E|]; reflexivity.
Qed.
Print Assumptions C72_trace_info_for_ever.

(** ... so it may be wrong. *)
Theorem C72_trace_info_right_refuted : exists (h : holder unit) f,
  eh_info h = None /\ eh_positions h = None /\
  let h' := change_events f (fst (get_positions (fst (get_info h)))) in
  snd (snd (get_info h')) <> length (eh_events h') /\
  exists n l i, dget str_eq_dec (snd (get_positions h')) n = Some l /\ In i l /\ ~ is_place_of (map fe_name (eh_events h')) n i.
Proof.
  exists (new_holder [mkFE (str "a") 0%Z tt; mkFE (str "b") 1%Z tt]), (fun t => mkFE (str "ARTIFICIAL_START") (-1)%Z tt :: t).
  split; [reflexivity|]. split; [reflexivity|]. cbv zeta. split; [vm_compute; discriminate|].
  exists (str "a"), [0], 0. split; [vm_compute; reflexivity|]. split; [left; reflexivity|]. vm_compute. discriminate.
Qed.
Print Assumptions C72_trace_info_right_refuted.

(** Cases. *)
Definition ex_e (s : pystr) : fevent unit := mkFE s 0%Z tt.
Definition ex_log : list (list (fevent unit)) :=
  [[ex_e (str "a"); ex_e (str "b")]; [ex_e (str "b")]; [ex_e (str "a"); ex_e (str "b")]; []; [ex_e (str "b"); ex_e (str "a")]; [ex_e (str "b")]].
Definition ex_hash (s : pystr) : N := fold_left (fun n c => (n * 256 + c)%N) s 1%N.
Definition ex_rev : list nat -> forall B : Type, list B -> list B := fun place B l => if length place =? 1 then l else rev l.
Example C72_orders : any_orders ex_rev.
Proof. intros place B l. unfold ex_rev. destruct (length place =? 1); [reflexivity|]. symmetry. apply Permutation_rev. Qed.
Example C72_hash_separates : forall t u a b, In t ex_log -> In u ex_log -> In a t -> In b u ->
  ex_hash (fe_name a) = ex_hash (fe_name b) -> fe_name a = fe_name b.
Proof.
  intros t u a b Ht Hu Ha Hb. cbn in Ht, Hu.
  repeat (destruct Ht as [<-|Ht]; [|]); try contradiction; repeat (destruct Hu as [<-|Hu]; [|]); try contradiction; cbn in Ha, Hb;
    repeat (destruct Ha as [<-|Ha]; [|]); try contradiction; repeat (destruct Hb as [<-|Hb]; [|]); try contradiction;
    vm_compute; intros E; congruence || discriminate.
Qed.
Example C72_groups_case : groups_indices ex_hash ex_rev ex_log = Ok [[0; 2]; [1; 5]; [3]; [4]].
Proof. vm_compute. reflexivity. Qed.
Example C72_variants_case : variants_part ex_hash ex_rev (mkFCfg None None None None) (mkFCtx (Some ex_log) None) =
  Ok (mkFCtx (Some [[ex_e (str "a"); ex_e (str "b")]; [ex_e (str "b")]; []; [ex_e (str "b"); ex_e (str "a")]]) None).
Proof. vm_compute. reflexivity. Qed.
Example C72_name_case : name_part (mkFCfg (Some (str "b")) None None None) (mkFCtx (Some ex_log) None) =
  Ok (mkFCtx (Some [[ex_e (str "a")]; [ex_e (str "a")]; [ex_e (str "a")]]) None).
Proof. vm_compute. reflexivity. Qed.
Example C72_count_case : count_part (mkFCfg None None (Some 2) None) (mkFCtx (Some ex_log) None) =
  Ok (mkFCtx (Some [[ex_e (str "a"); ex_e (str "b")]; [ex_e (str "a"); ex_e (str "b")]; [ex_e (str "b"); ex_e (str "a")]]) None).
Proof. vm_compute. reflexivity. Qed.
(** "b" matches b, fails for the empty text; the class is the first letter. *)
Definition ex_compile (s : pystr) : option regex :=
  match s with
  | [] => None
  | c :: _ => Some (mkRx (fun n => match n with [] => None | d :: _ => Some (N.eqb c d) end)
                         (fun n => match n with [] => None | d :: _ => Some (if N.eqb c d then Some (0, 1) else None) end))
  end.
Example C72_class_case : class_part ex_compile (mkFCfg None (Some (str "b")) None (Some (str "b")))
    (mkFCtx (Some [[ex_e (str "bcd"); ex_e (str "ab")]; [ex_e (str "ba")]]) None) =
  Ok (mkFCtx (Some [[ex_e (str "b"); ex_e (str "ab")]; [ex_e (str "b")]]) None).
Proof. vm_compute. reflexivity. Qed.
Example C72_regex_case : regex_part ex_compile (mkFCfg None (Some (str "b")) None None) (mkFCtx (Some ex_log) None) =
    Ok (mkFCtx (Some [[ex_e (str "a")]; [ex_e (str "a")]; [ex_e (str "a")]]) None) /\
  regex_part ex_compile (mkFCfg None (Some (str "b")) None None) (mkFCtx (Some [[ex_e []]; [ex_e (str "a")]]) None) = rpanic.
Proof. vm_compute. auto. Qed.
