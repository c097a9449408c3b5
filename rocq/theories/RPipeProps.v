(** Property C71: the parts of the backend which look for activities. *)
From Coq Require Import Permutation Sorting.Sorted.
From Verif Require Import Py PyFacts ReplayModel PatternModel PatternSpec TreeModel TreeSpec ActModel ActSpec RInfoSpec RActModel RActSpec RLogModel RLogSpec RLogProofs RPipeModel RPipeSpec RPipeProofs.

(** A search works on every log, unless a hash overflows; what it finds is in order and depends on the log only. *)
Theorem C71_search_total : forall A (name_of : A -> pystr) sip text_hash ord compile, any_order ord -> forall level cfg,
  patterns_keys cfg -> instances_keys cfg -> cf_level cfg <> None -> regex_valid compile cfg ->
  forall c log, ac_log c = Some log ->
  good sip (fun c' => ac_log c' = Some log /\ exists l, ac_instances c' = Some l /\ in_order l log /\ search name_of sip text_hash ord compile level cfg log l) (discovery name_of sip text_hash ord compile level cfg c).
Proof.
  intros A name_of sip text_hash ord compile O level cfg K1 K2 K3 Hr c log Hl. eapply good_impl; [|exact (discovery_ok name_of sip text_hash ord compile O level cfg c log K1 K2 K3 Hr Hl)].
  intros c3 E. destruct (discovery_inv _ _ _ _ _ _ _ _ _ E) as (log' & h & p & t & l & El & Ec & Ho). rewrite Hl in El. injection El as <-. subst c3. split; [reflexivity|]. exists l. split; [reflexivity|]. split; [exact Ho|].
  exact (discovery_search _ _ _ _ _ _ _ _ _ _ _ E Hl eq_refl).
Qed.
Print Assumptions C71_search_total.

(** The rounds come to an end: no more of them than there are events, whatever is found.  The result is one unless a hash
    overflows, and nothing is missing. *)
Theorem C71_until_total : forall A (name_of : A -> pystr) fresh sip text_hash ord compile, any_order ord -> forall after cfg, opt harmless after -> until_keys cfg -> regex_valid compile cfg ->
  forall c log fuel, ac_log c = Some log -> total_length log < fuel ->
  good sip (fun _ => True) (until_no_more name_of fresh sip text_hash ord compile fuel after cfg c).
Proof.
  intros A name_of fresh sip text_hash ord compile O after cfg Ha K Hr c log fuel Hl Hf. pose proof K as (_ & _ & K3 & _ & K5). unfold until_no_more. destruct (need_some _ K3) as (level & _ & ->). destruct (need_some _ K5) as (only & _ & ->). cbn [bind].
  rewrite <- count_events_eq in Hf. eapply good_impl; [|exact (until_total name_of fresh sip text_hash ord compile after level only cfg O Ha K Hr fuel c log Hl Hf)]. intros; exact I.
Qed.
Print Assumptions C71_until_total.

(** More fuel does not change anything, for every pipeline which leaves the log and the instances. *)
Theorem C71_until_bounded : forall A (name_of : A -> pystr) fresh sip text_hash ord compile after cfg, opt keeping after ->
  forall c log fuel, ac_log c = Some log -> total_length log < fuel ->
  until_no_more name_of fresh sip text_hash ord compile fuel after cfg c = until_no_more name_of fresh sip text_hash ord compile (S (total_length log)) after cfg c.
Proof.
  intros A name_of fresh sip text_hash ord compile after cfg K c log fuel Hl Hf. unfold until_no_more. apply bind_ext. intros level _. apply bind_ext. intros only _. pose proof (count_events_eq log). apply (until_fuel _ _ _ _ _ _ _ _ _ _ K _ _ c log Hl); lia.
Qed.
Print Assumptions C71_until_bounded.

Lemma until_inv' A (name_of : A -> pystr) fresh sip text_hash ord compile fuel after cfg c c' runs : until_no_more name_of fresh sip text_hash ord compile fuel after cfg c = Ok (c', runs) ->
  exists level only, cf_level cfg = Some level /\ cf_only_last cfg = Some only /\ until_loop name_of fresh sip text_hash ord compile fuel after level only cfg c = Ok (c', runs).
Proof. unfold until_no_more. intros H. destruct (cf_level cfg) as [level|]; [|discriminate]. destruct (cf_only_last cfg) as [only|]; [|discriminate]. exists level, only. repeat split. exact H. Qed.

(** The resulting log: as many traces, not more events, and with all events kept the same events at the bottom; nothing else
    is left in the context. *)
Theorem C71_until_log : forall A (name_of : A -> pystr) fresh sip text_hash ord compile fuel after cfg c c' runs log bottom, opt keeping after ->
  until_no_more name_of fresh sip text_hash ord compile fuel after cfg c = Ok (c', runs) -> ac_log c = Some log -> Forall2 leaves log bottom ->
  exists final, ac_log c' = Some final /\ cleared c' /\ length final = length log /\ total_length final <= total_length log /\
    (cf_undef cfg = Some DtoInsertAll -> Forall2 leaves final bottom).
Proof.
  intros A name_of fresh sip text_hash ord compile fuel after cfg c c' runs log bottom K H Hl Hb. destruct (until_inv' _ _ _ _ _ _ _ _ _ _ _ _ _ H) as (level & only & _ & _ & H').
  destruct (until_inv _ _ _ _ _ _ _ _ _ _ K _ _ _ _ H') as (log' & final & I1 & I2 & I3 & I4 & I5 & I6 & _). rewrite Hl in I1. injection I1 as <-. exists final. rewrite !count_events_eq in I5. split; [exact I2|]. split; [exact I3|]. split; [exact I4|]. split; [exact I5|].
  intros Hu. destruct (rounds_proof _ _ _ _ _ (I6 Hu)) as (E & _). rewrite (proj2 (substitute_proof A log) _ Hb), <- E. apply substitute_proof.
Qed.
Print Assumptions C71_until_log.

(** It stops when there is no more: the last search found no instance of two events or more. *)
Theorem C71_until_no_more_left : forall A (name_of : A -> pystr) fresh sip text_hash ord compile fuel after cfg c c' runs final, opt keeping after ->
  until_no_more name_of fresh sip text_hash ord compile fuel after cfg c = Ok (c', runs) -> ac_log c' = Some final ->
  exists level last l, cf_level cfg = Some level /\ search name_of sip text_hash ord compile level cfg last l /\ in_order l last /\ (forall x, In x (concat l) -> in_length x = 1) /\
    (concat l = [] /\ final = last \/ exists u, cf_undef cfg = Some u /\ new_log (strategy_of fresh u) (event_for fresh) last l = Ok final).
Proof.
  intros A name_of fresh sip text_hash ord compile fuel after cfg c c' runs final K H Hf. destruct (until_inv' _ _ _ _ _ _ _ _ _ _ _ _ _ H) as (level & only & El & _ & H').
  destruct (until_inv _ _ _ _ _ _ _ _ _ _ K _ _ _ _ H') as (log' & final' & _ & I2 & _ & _ & _ & _ & I7 & _). rewrite Hf in I2. injection I2 as <-. destruct I7 as (last & l & I7). exists level, last, l. split; [exact El|exact I7].
Qed.
Print Assumptions C71_until_no_more_left.

(** The pipeline is executed with the instances of a round, of which there are some, with fewer events each time.  For the
    last one only: once at most, when all instances are single events.  Otherwise it is executed unless nothing was found. *)
Theorem C71_pipeline_runs : forall A (name_of : A -> pystr) fresh sip text_hash ord compile fuel after cfg c c' runs log, opt keeping after ->
  until_no_more name_of fresh sip text_hash ord compile fuel after cfg c = Ok (c', runs) -> ac_log c = Some log ->
  Forall with_instances runs /\ StronglySorted (fun a b => events_of b < events_of a) runs /\ Forall (fun r => events_of r <= total_length log) runs /\
  (cf_only_last cfg = Some true -> length runs <= 1 /\ Forall single_only runs) /\ (after = None -> runs = []) /\
  (cf_only_last cfg = Some false -> after <> None -> runs = [] ->
   ac_log c' = Some log /\ exists level l, cf_level cfg = Some level /\ search name_of sip text_hash ord compile level cfg log l /\ concat l = []).
Proof.
  intros A name_of fresh sip text_hash ord compile fuel after cfg c c' runs log K H Hl. destruct (until_inv' _ _ _ _ _ _ _ _ _ _ _ _ _ H) as (level & only & El & Eo & H').
  destruct (until_inv _ _ _ _ _ _ _ _ _ _ K _ _ _ _ H') as (log' & final' & I1 & I2 & _ & _ & _ & _ & _ & I8 & I9 & I10 & I11 & I12 & I13). rewrite Hl in I1. injection I1 as <-. rewrite Eo.
  split; [exact I8|]. split; [exact I9|]. split; [exact I10|]. split; [intros [= ->]; apply I11; reflexivity|]. split; [exact I12|].
  intros [= ->] Ha Hr. destruct (I13 eq_refl Ha Hr) as (-> & l & Fd & Hn). split; [exact I2|]. exists level, l. repeat split; assumption.
Qed.
Print Assumptions C71_pipeline_runs.

(** Several levels, repeats: the log stays, no instance is lost, and each level adds its activities. *)
Theorem C71_levels : forall A (name_of : A -> pystr) sip text_hash ord compile, any_order ord -> forall cfg kind mode regexes level c log,
  cf_kind cfg = Some kind -> is_tandem kind = false -> levels_keys cfg -> cf_adjusting cfg = Some mode -> cf_regexes cfg = Some regexes -> cf_level cfg = Some level ->
  Forall (fun r => compile r <> None) regexes -> (mode = FromUnattachedSubTraces -> ac_instances c <> None) -> ac_log c = Some log -> in_order (known_instances log c) log ->
  good sip (fun c' => ac_log c' = Some log /\ in_order (known_instances log c') log /\ Forall2 thinned (known_instances log c) (known_instances log c') /\
    exists news, Permutation (known_activities c') (known_activities c ++ concat news) /\ length news = length regexes /\ levels_from level news)
    (several_levels name_of sip text_hash ord compile cfg c).
Proof.
  intros A name_of sip text_hash ord compile O cfg kind mode regexes level c log Ek Hk K Em Er El Hc Hi Hl Ho. rewrite (several_unfold name_of sip text_hash ord compile cfg c regexes level kind mode Er El Ek Em K).
  eapply good_impl; [|apply (levels_ok name_of sip text_hash ord compile cfg mode O); [eauto|exact K|exact Em|apply Forall_rev; exact Hc|exact Hi|exact Hl|exact Ho]].
  intros c' (news & H1 & H2 & H3 & H4 & H5 & H6). rewrite rev_length in H5. split; [exact H1|]. split; [exact H2|]. split; [exact H3|]. exists news. repeat split; assumption.
Qed.
Print Assumptions C71_levels.

(** A pipeline for each activity: each name once, with its log, and nothing else in the context; in any order. *)
Theorem C71_each_log : forall A (name_of : A -> pystr) ord, any_order ord -> forall pipeline, (forall t, exists r, pipeline t = Ok r) -> forall cfg c (log : list (list (revent A))),
  ac_log c = Some log -> cf_source cfg = Some SourceLog ->
  exists ctxs, each_activity_log name_of ord pipeline cfg c = Ok ctxs /\ NoDup (map ac_name ctxs) /\
    (forall c', In c' ctxs -> exists n ts, c' = only_log n ts /\ ts <> [] /\ Forall2 leaves (groups_named name_of n log) ts) /\
    (forall n ts, Forall2 leaves (groups_named name_of n log) ts -> ts <> [] -> In (only_log n ts) ctxs).
Proof.
  intros A name_of ord O pipeline Hp cfg c log Hl Hs. destruct (each_ok name_of ord pipeline cfg c log SourceLog _ O Hp Hl Hs eq_refl) as (ctxs & E & HP). destruct (logs_from_log_proof _ name_of log) as (Hd & Hn).
  exists ctxs. split; [exact E|]. apply (each_entries (logs_from_log name_of log) ctxs (fun n ts => Forall2 leaves (groups_named name_of n log) ts)); [|exact Hd|exact HP].
  intros n. destruct (Hn n) as (ts & H1 & H2). exists ts. split; [exact H1|]. split; [|exact H2]. intros ts' H'.
  rewrite (proj2 (substitute_proof _ _) _ H1). apply substitute_proof. exact H'.
Qed.
Print Assumptions C71_each_log.

Theorem C71_each_log_of_instances : forall A (name_of : A -> pystr) ord, any_order ord -> forall pipeline, (forall t, exists r, pipeline t = Ok r) -> forall cfg c (log : list (list (revent A))) level l,
  ac_log c = Some log -> cf_source cfg = Some SourceTracesActivities -> cf_level cfg = Some level -> ac_instances c = Some l -> in_order l log ->
  exists ctxs, each_activity_log name_of ord pipeline cfg c = Ok ctxs /\ NoDup (map ac_name ctxs) /\
    (forall c', In c' ctxs -> exists n ts, c' = only_log n ts /\ ts <> [] /\ ts = stretches_named snd fst level n l log) /\
    (forall n ts, ts = stretches_named snd fst level n l log -> ts <> [] -> In (only_log n ts) ctxs).
Proof.
  intros A name_of ord O pipeline Hp cfg c log level l Hl Hs Hv Hi Ho. destruct (logs_from_instances_proof snd fst level l log Ho) as (logs & El & Hd & Hn).
  destruct (each_ok name_of ord pipeline cfg c log SourceTracesActivities logs O Hp Hl Hs) as (ctxs & E & HP). { rewrite Hv, Hi. exact El. }
  exists ctxs. split; [exact E|]. apply (each_entries logs ctxs (fun n ts => ts = stretches_named snd fst level n l log)); [|exact Hd|exact HP].
  intros n. eexists. split; [reflexivity|]. split; [intros ts' ->; reflexivity|apply Hn].
Qed.
Print Assumptions C71_each_log_of_instances.

(** * cases *)
Lemma small_hash_total sip : (forall x, sip x < 4294967296)%N -> hash_total sip.
Proof.
  intros Hs w. unfold hashable, poly_hash.
  enough (G : forall w st, (fst st < poly_mod)%N -> (snd st < poly_mod)%N -> exists st', loopM (poly_step sip) w st = Ok st').
  { destruct (G w (1%N, 1%N)) as (st & ->); [reflexivity..|]. cbn. eauto. }
  clear w. induction w as [|x w IH]; intros [h p] Hh Hp; [cbn; eauto|]. rewrite loopM_cons. cbn [fst snd] in Hh, Hp. unfold poly_step.
  assert (Hm : poly_mod = 1000000007%N) by reflexivity. assert (Hu : u64_range = 18446744073709551616%N) by reflexivity. specialize (Hs x).
  destruct (N.leb_spec u64_range (1 + sip x)) as [H|_]; [exfalso; lia|].
  assert (Hb : ((1 + sip x) * p < 18446744073709551616 - 1000000007)%N) by nia.
  rewrite (N.mod_small ((1 + sip x) * p)) by lia. destruct (N.leb_spec u64_range (h + (1 + sip x) * p)) as [H|_]; [exfalso; lia|]. cbn [bind]. apply IH; cbn [fst snd]; apply N.mod_lt; discriminate.
Qed.

Definition sip_case (x : N) : N := (x mod 4294967296)%N.
Lemma sip_case_total : hash_total sip_case.
Proof. apply small_hash_total. intros x. apply N.mod_lt. discriminate. Qed.
Definition text_case (s : pystr) : N := fold_left (fun h c => (h * 256 + c) mod 1000003)%N s 0%N.
Definition ord_case (k : nat) (A : Type) (l : list A) : list A := l.
Lemma ord_case_any : any_order ord_case.
Proof. intros k A l. reflexivity. Qed.
Definition compile_case (r : pystr) : option (pystr -> option (nat * nat)) := if str_eq_dec r (str "[") then None else Some (fun s => Some (0, if str_eq_dec r (str ".") then 1 else length s)).
Definition cfg_case (kind : patterns_kind) (u : undef_dto) (only : bool) : act_config :=
  mkACfg (Some kind) (Some 0) (Some 10) (Some true) None (Some [str "."; str ".*"]) (Some NarrowDown) (Some 0) (Some NoFilter) (Some u) (Some 0) (Some FromAllLog) (Some only) (Some SourceLog).
Definition ev (s : pystr) : revent pystr := REvent s None.
Definition log_case (ts : list (list pystr)) : @act_context pystr := put_log empty_context (map (map ev) ts).
Definition same (c : @act_context pystr) : result (@act_context pystr) := Ok c.
Definition until_case := until_no_more (fun n : pystr => n) (fun n => n) sip_case text_case ord_case compile_case.
(** The names of the events of the log, and the places of the instances the pipeline was given. *)
Definition shown (r : result (@act_context pystr * list (@act_context pystr))) : result (option (list (list pystr)) * list (option (list (list (nat * nat))))) :=
  bind r (fun p => Ok (option_map (map (map ev_about)) (ac_log (fst p)), map (fun c => option_map (map (map (fun x => (in_start x, in_length x)))) (ac_instances c)) (snd p))).
Definition abc_case : list (list pystr) := [[str "a"; str "b"; str "c"; str "a"; str "b"; str "d"]; [str "a"; str "b"; str "d"]].
Lemma cfg_case_keys kind u only : until_keys (cfg_case kind u only) /\ levels_keys (cfg_case kind u only) /\ regex_valid compile_case (cfg_case kind u only).
Proof.
  unfold until_keys, levels_keys, patterns_keys, instances_keys, regex_valid. cbn. repeat split; try discriminate. exists kind. split; [reflexivity|]. destruct (is_tandem kind); discriminate.
Qed.
Example C71_hypotheses_case : any_order ord_case /\ hash_total sip_case /\ opt harmless (Some same) /\ opt keeping (Some same) /\ until_keys (cfg_case MaximalRepeats DtoInsertAll false).
Proof.
  split; [exact ord_case_any|]. split; [exact sip_case_total|]. split; [intros c; exists c; repeat split|]. split; [intros c c' [= <-]; split; reflexivity|]. apply cfg_case_keys.
Qed.
(** Two rounds: a b becomes one event, which becomes one again. *)
Example C71_until_case : shown (until_case 10 (Some same) (cfg_case MaximalRepeats DtoInsertAll false) (log_case abc_case)) =
  Ok (Some [[str "((a)::(b))"; str "c"; str "((a)::(b))"; str "d"]; [str "((a)::(b))"; str "d"]], [Some [[(0, 2); (3, 2)]; [(0, 2)]]; Some [[(0, 1); (2, 1)]; [(0, 1)]]]).
Proof. vm_compute. reflexivity. Qed.
Example C71_only_last_case : shown (until_case 10 (Some same) (cfg_case MaximalRepeats DtoInsertAll true) (log_case abc_case)) =
  Ok (Some [[str "((a)::(b))"; str "c"; str "((a)::(b))"; str "d"]; [str "((a)::(b))"; str "d"]], [Some [[(0, 1); (2, 1)]; [(0, 1)]]]).
Proof. vm_compute. reflexivity. Qed.
Example C71_tandem_case : shown (until_case 10 (Some same) (cfg_case PrimitiveTandemArrays DtoInsertAll false) (log_case [[str "a"; str "b"; str "a"; str "b"; str "c"]])) =
  Ok (Some [[str "(a)::(b)"; str "c"]], [Some [[(0, 4)]]]).
Proof. vm_compute. reflexivity. Qed.

(** For the last round only: the pipeline may never be executed, although instances were found. *)
Theorem C71_executed_once_refuted : exists log c' c1, let cfg := cfg_case MaximalRepeats DtoInsertAll true in
  until_case 10 (Some same) cfg (log_case log) = Ok (c', []) /\
  discovery (fun n : pystr => n) sip_case text_case ord_case compile_case 0 cfg (log_case log) = Ok c1 /\ with_instances c1.
Proof.
  exists [[str "a"; str "b"; str "a"; str "b"; str "c"]]. eexists. eexists. cbv zeta. split; [vm_compute; reflexivity|]. split; [vm_compute; reflexivity|].
  eexists. eexists. split; [reflexivity|]. split; [reflexivity|]. split; [repeat constructor|]. eexists. left. reflexivity.
Qed.
Print Assumptions C71_executed_once_refuted.

(** Several levels with tandem arrays: never anything but a panic, because the length of the arrays is not handed on. *)
Theorem C71_levels_of_tandem_arrays_panic : forall A (name_of : A -> pystr) sip text_hash ord compile cfg kind mode regexes c log,
  cf_kind cfg = Some kind -> is_tandem kind = true -> levels_keys cfg -> cf_adjusting cfg = Some mode -> cf_regexes cfg = Some regexes -> regexes <> [] ->
  (mode = FromUnattachedSubTraces -> ac_instances c <> None) -> ac_log c = Some log -> in_order (known_instances log c) log ->
  several_levels name_of sip text_hash ord compile cfg c = rpanic.
Proof. intros A name_of sip text_hash ord compile cfg kind mode regexes c log E1 E2 K E3 E4 Hn Hi Hl Ho. exact (tandem_panics name_of sip text_hash ord compile cfg c log regexes kind mode E4 Hn E1 E2 E3 K Hi Hl Ho). Qed.
Print Assumptions C71_levels_of_tandem_arrays_panic.
(** On the events outside of instances only, without instances: missing. *)
Theorem C71_levels_without_instances_missing : forall A (name_of : A -> pystr) sip text_hash ord compile cfg kind regexes c (log : list (list (revent A))),
  cf_kind cfg = Some kind -> levels_keys cfg -> cf_adjusting cfg = Some FromUnattachedSubTraces -> cf_regexes cfg = Some regexes -> regexes <> [] -> ac_log c = Some log -> ac_instances c = None ->
  several_levels name_of sip text_hash ord compile cfg c = missing.
Proof.
  intros A name_of sip text_hash ord compile cfg kind regexes c log Ek K Em Er Hn Hl Hi. destruct (need_some _ (proj1 (proj2 K))) as (level & E2 & _). rewrite (several_unfold name_of sip text_hash ord compile cfg c regexes level kind _ Er E2 Ek Em K).
  destruct (rev regexes) as [|r rest] eqn:Ev. { apply (f_equal (@rev _)) in Ev. rewrite rev_involutive in Ev. contradiction. }
  cbn [levels_loop]. unfold adjust. cbn [level_config cf_adjusting]. rewrite Em. cbn [need bind]. set (c0 := match ac_activities c with None => put_activities c [] | Some _ => c end).
  assert (C : ac_log c0 = Some log /\ ac_instances c0 = None) by (unfold c0; destruct (ac_activities c); cbn; split; assumption). destruct C as [-> ->]. cbn [need bind]. unfold find_patterns. cbn [level_config cf_kind]. rewrite Ek. reflexivity.
Qed.
Print Assumptions C71_levels_without_instances_missing.

Definition levels_shown (c : @act_context pystr) := (map (fun a => (an_data a)) (known_activities c), map (map (fun x => (in_start x, in_length x))) (known_instances [] c)).
Example C71_levels_case : exists c', several_levels (fun n : pystr => n) sip_case text_case ord_case compile_case (cfg_case MaximalRepeats DtoInsertAll false) (log_case abc_case) = Ok c' /\
  levels_shown c' = ([(str "(a)::(b)", 0); (str "(a)::(b)", 1)], [[(0, 2); (3, 2)]; [(0, 2)]]).
Proof. eexists. split; [vm_compute; reflexivity|]. vm_compute. reflexivity. Qed.
(** So the claim of C71_levels does not hold for all kinds, although the length of the arrays is configured. *)
Theorem C71_levels_of_all_kinds_refuted : exists cfg log, cf_kind cfg <> None /\ levels_keys cfg /\ cf_array_length cfg <> None /\ cf_adjusting cfg = Some FromAllLog /\ cf_regexes cfg <> None /\
  several_levels (fun n : pystr => n) sip_case text_case ord_case compile_case cfg (log_case log) = rpanic.
Proof.
  exists (cfg_case MaximalTandemArrays DtoInsertAll false), abc_case. split; [discriminate|]. split; [apply cfg_case_keys|]. split; [discriminate|]. split; [reflexivity|]. split; [discriminate|]. vm_compute. reflexivity.
Qed.
Print Assumptions C71_levels_of_all_kinds_refuted.
Example C71_each_case : exists l1 l2, each_activity_log (fun n : pystr => n) ord_case same (cfg_case MaximalRepeats DtoInsertAll false)
    (put_log empty_context [[REvent (str "x") (Some [ev (str "a"); ev (str "b")]); ev (str "c"); REvent (str "y") (Some [ev (str "d")])]; [REvent (str "x") (Some [ev (str "a")])]]) = Ok [only_log (str "x") l1; only_log (str "y") l2] /\
  l1 = [[ev (str "a"); ev (str "b")]; [ev (str "a")]] /\ l2 = [[ev (str "d")]].
Proof. eexists. eexists. split; [vm_compute; reflexivity|]. split; reflexivity. Qed.
