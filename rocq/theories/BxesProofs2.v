(** Proofs about BXES files: events and logs. *)
From Coq Require Import Permutation.
From Verif Require Import Py PyFacts HashModel RXesModel RXesProofs PnmlProofs BxesModel BxesSpec BxesProofs.

Section Proofs.
  Variables date f32 f64 other : Type.
  Variables (nanos : date -> option Z) (of_nanos : Z -> date).
  Variables (date_eqb : date -> date -> bool) (f32_eqb : f32 -> f32 -> bool) (f64_eqb : f64 -> f64 -> bool).
  Notation epv := (epv date f32 f64).
  Notation elog := (elog date f32 f64).
  Notation eevent := (eevent date f32 f64).
  Notation bval := (bval f32 f64 other).
  Notation bevent := (bevent f32 f64 other).
  Notation blog := (blog f32 f64 other).
  Notation wval := (payload_value_to_bxes_value date f32 f64 other nanos).
  Notation rval := (bxes_value_to_payload_value date f32 f64 other of_nanos).
  Notation wpair := (kv_pair_to_bxes_pair date f32 f64 other nanos).
  Notation rpair := (read_pair date f32 f64 other of_nanos).
  Notation rpairs := (read_pairs date f32 f64 other of_nanos).
  Notation turns := (turns date f32 f64 nanos of_nanos).
  Notation table_turns := (table_turns date f32 f64 nanos of_nanos).
  Notation default := (default date f32 f64 date_eqb f32_eqb f64_eqb).
  Notation fits := (fits date f32 f64 nanos).
  Notation notdef := (is_not_default date f32 f64 date_eqb f32_eqb f64_eqb).
  Notation wevent := (create_bxes_event date f32 f64 other nanos date_eqb f32_eqb f64_eqb).
  Notation revent := (create_xes_event date f32 f64 other of_nanos).
  Notation wglobals := (create_bxes_globals date f32 f64 other nanos).
  Notation wtraces := (create_bxes_traces date f32 f64 other nanos date_eqb f32_eqb f64_eqb).
  Notation wlog := (write_event_log_to_bxes date f32 f64 other nanos date_eqb f32_eqb f64_eqb).
  Notation rlog := (read_bxes_into_xes_log date f32 f64 other of_nanos).
  Notation log_turns := (log_turns date f32 f64 nanos of_nanos date_eqb f32_eqb f64_eqb).
  Notation tables := (tables date f32 f64).

  Lemma notdef_false log k v : notdef log (k, v) = false -> default log k v.
  Proof.
    unfold is_not_default, BxesSpec.default, value_of. cbn [fst snd]. destruct (dget str_eq_dec (e_globals _ _ _ log) (str "event")) as [g|]; [|discriminate].
    destruct (dget str_eq_dec g k) as [d|] eqn:E; [|discriminate]. intros H. apply Bool.negb_false_iff, epv_eqb_equal in H. exists g, d. auto.
  Qed.
  Lemma event_trip log e b : NoDup (map fst (e_payload _ _ _ e)) -> wevent log e = Ok b ->
    exists e', revent b = Ok e' /\ event_turns date f32 f64 nanos of_nanos date_eqb f32_eqb f64_eqb log e e'.
  Proof.
    intros N. unfold create_bxes_event, timestamp_nanos. destruct (nanos (e_time _ _ _ e)) as [z|] eqn:Z0; cbn [bind]; [|discriminate].
    destruct (mapM wpair _) as [ps|] eqn:W; cbn [bind]; [|discriminate]. intros [= <-].
    destruct (table_trip _ _ _ other _ of_nanos (notdef log) (default log) _ _ (notdef_iff _ _ _ _ _ _ log) (notdef_false log) N W) as (m' & R & T).
    unfold create_xes_event. cbn [b_name b_time b_attributes string_or_err bind]. rewrite R. cbn [bind]. eexists. split; [reflexivity|].
    split; [reflexivity|]. split; [exists z; split; [exact Z0|reflexivity]|exact T].
  Qed.
  Lemma filter_all {A} (l : list A) : filter (fun _ => true) l = l.
  Proof. induction l as [|x l IH]; cbn; [|rewrite IH]; reflexivity. Qed.
  Lemma kind_name s k : parse_entity_kind s = Ok k -> global_type_to_string k = s.
  Proof.
    unfold parse_entity_kind. destruct (str_eqb s (str "event")) eqn:E1; [intros [= <-]; symmetry; apply str_eqb_eq, E1|].
    destruct (str_eqb s (str "trace")) eqn:E2; [intros [= <-]; symmetry; apply str_eqb_eq, E2|].
    destruct (str_eqb s (str "log")) eqn:E3; [intros [= <-]; symmetry; apply str_eqb_eq, E3|discriminate].
  Qed.
  Lemma kind_ok s : (exists k, parse_entity_kind s = Ok k) <-> s = str "event" \/ s = str "trace" \/ s = str "log".
  Proof.
    unfold parse_entity_kind. destruct (str_eqb s (str "event")) eqn:E1; [split; [left; apply str_eqb_eq, E1|eauto]|].
    destruct (str_eqb s (str "trace")) eqn:E2; [split; [right; left; apply str_eqb_eq, E2|eauto]|].
    destruct (str_eqb s (str "log")) eqn:E3; [split; [right; right; apply str_eqb_eq, E3|eauto]|].
    split; [intros (k & H); discriminate|]. intros [->|[->| ->]]; rewrite str_eqb_refl in *; discriminate.
  Qed.
  Notation wscope := (fun sc : pystr * list (pystr * epv) =>
    bind (parse_entity_kind (fst sc)) (fun k => bind (mapM wpair (snd sc)) (fun kvs => Ok (k, kvs)))).
  Notation rscope := (fun kg : bkind * list (bval * bval) => bind (rpairs (snd kg)) (fun g => Ok (global_type_to_string (fst kg), g))).
  Definition scope_turns (sc sc' : pystr * dict pystr epv) : Prop := fst sc' = fst sc /\ table_turns (fun _ _ => False) (snd sc) (snd sc').
  Lemma scope_trip s g x : NoDup (map fst g) -> wscope (s, sort_by_first g) = Ok x -> exists y, rscope x = Ok y /\ scope_turns (s, g) y.
  Proof.
    intros N. cbn [fst snd]. destruct (parse_entity_kind s) as [k|] eqn:K; cbn [bind]; [|discriminate]. destruct (mapM wpair _) as [ps|] eqn:W; cbn [bind]; [|discriminate]. intros [= <-].
    rewrite <- (filter_all (sort_by_first g)) in W.
    destruct (table_trip _ _ _ other _ of_nanos (fun _ => true) (fun _ _ => False) _ _ (fun _ _ => conj (fun _ F => F) (fun _ => eq_refl)) (fun _ _ H => match Bool.diff_true_false H with end) N W) as (m' & R & T).
    cbn [fst snd]. rewrite R. cbn [bind]. eexists. split; [reflexivity|]. split; [apply kind_name, K|exact T].
  Qed.
  Lemma mapM_map {A B C} (f : B -> result C) (h : A -> B) l : mapM f (map h l) = mapM (fun x => f (h x)) l.
  Proof. induction l as [|x l IH]; cbn; [|rewrite IH]; reflexivity. Qed.
  Lemma globals_loop l : loopM (fun m kg => bind (rpairs (snd kg)) (fun g => Ok (dset str_eq_dec m (global_type_to_string (fst kg)) g))) l []
    = bind (mapM rscope l) (fun qs => Ok (put_all qs [])).
  Proof.
    rewrite <- loop_put. generalize (@nil (pystr * dict pystr epv)) as m. induction l as [|kg l IH]; intros m; [reflexivity|]. rewrite !loopM_cons.
    destruct (rpairs (snd kg)); cbn [bind fst snd]; [apply IH|reflexivity].
  Qed.
  Lemma sort_scopes (g : dict pystr (dict pystr epv)) :
    sort_by_first (map (fun sc => (fst sc, sort_by_first (snd sc))) g) = map (fun sc => (fst sc, sort_by_first (snd sc))) (sort_by_first g).
  Proof.
    unfold sort_by_first. induction g as [|[s d] g IH]; [reflexivity|]. cbn [map fold_right fst snd]. fold (@sort_by_first epv) in *. rewrite IH.
    set (l := fold_right insert_first [] g). clearbody l. clear IH. induction l as [|[s' d'] l IHl]; [reflexivity|]. cbn [map insert_first fst snd].
    destruct (str_leb s s'); [reflexivity|]. cbn [map fst snd]. rewrite IHl. reflexivity.
  Qed.
  Lemma scopes_keys l r : Forall2 scope_turns l r -> map fst r = map fst l.
  Proof. induction 1 as [|x y l r [E _] F IH]; cbn; [reflexivity|]. rewrite E, IH. reflexivity. Qed.
  Lemma scopes_get l r : Forall2 scope_turns l r -> forall s,
    match dget str_eq_dec l s with None => dget str_eq_dec r s = None | Some g => exists g', dget str_eq_dec r s = Some g' /\ table_turns (fun _ _ => False) g g' end.
  Proof.
    induction 1 as [|[k1 v1] [k2 v2] l r [E T] F IH]; intros k; cbn [dget]; [reflexivity|]. cbn [fst snd] in E, T. subst k2.
    destruct (str_eq_dec k k1); [eauto|apply IH].
  Qed.
  Lemma globals_trip log bs : NoDup (map fst (e_globals _ _ _ log)) -> (forall s g, In (s, g) (e_globals _ _ _ log) -> NoDup (map fst g)) -> wglobals log = Ok bs ->
    exists gs, mapM rscope bs = Ok gs /\ forall s, match dget str_eq_dec (e_globals _ _ _ log) s with
      | None => dget str_eq_dec (put_all gs []) s = None
      | Some g => exists g', dget str_eq_dec (put_all gs []) s = Some g' /\ table_turns (fun _ _ => False) g g' end.
  Proof.
    intros N N2. unfold create_bxes_globals. rewrite sort_scopes, mapM_map. intros W.
    destruct (mapM_chain _ rscope scope_turns _ _ (fun x y Hx H => scope_trip (fst x) (snd x) y
      (N2 (fst x) (snd x) ltac:(rewrite <- surjective_pairing; eapply Permutation_in; [apply Permutation_sym, sort_perm|exact Hx])) H) W) as (gs & R & F).
    exists gs. split; [exact R|]. intros s. assert (F' : Forall2 scope_turns (sort_by_first (e_globals _ _ _ log)) gs).
    { clear -F. induction F as [|[a b] y l r H F IH]; constructor; assumption. }
    assert (G := scopes_get _ _ F' s). rewrite dget_sort in G.
    rewrite put_all_get by (rewrite (scopes_keys _ _ F'); apply sort_nodup, N). destruct (dget str_eq_dec (e_globals _ _ _ log) s).
    - destruct G as (g' & -> & T). eauto.
    - rewrite G. reflexivity.
  Qed.
  (** The file of a log can be read, and gives what [log_turns] says. *)
  Lemma roundtrip_proof log b : tables log -> wlog log = Ok b -> exists log', rlog b = Ok log' /\ log_turns log log'.
  Proof.
    intros (N1 & N2 & N3). unfold write_event_log_to_bxes. destruct (wglobals log) as [gs|] eqn:G; cbn [bind]; [|discriminate].
    destruct (mapM wpair (e_props _ _ _ log)) as [ps|] eqn:P; cbn [bind]; [|discriminate]. destruct (wtraces log) as [vs|] eqn:T; cbn [bind]; [|discriminate]. intros [= <-].
    unfold read_bxes_into_xes_log. cbn [bl_classifiers bl_exts bl_globals bl_props bl_variants all_of].
    unfold create_bxes_classifiers, create_bxes_extensions. rewrite !mapM_map.
    rewrite (mapM_ok _ (fun c => c)).
    2:{ intros [n ks] _. cbn [fst snd xc_name xc_keys string_or_err bind]. rewrite mapM_map. rewrite (mapM_ok _ (fun k => k)); [|reflexivity]. cbn [bind]. rewrite map_id. reflexivity. }
    cbn [bind]. destruct (mapM_chain _ rpair (pair_turns _ _ _ nanos of_nanos) _ _ (fun x y _ H => rpair_wpair _ _ _ _ _ _ x y H) P) as (qs & Q & FQ). rewrite Q. cbn [bind].
    rewrite (mapM_ok _ (fun x => x)). 2:{ intros [n p u] _. reflexivity. }
    cbn [bind]. rewrite globals_loop. destruct (globals_trip log gs N1 N2 G) as (hs & -> & HG). cbn [bind].
    unfold create_bxes_traces in T.
    assert (HT : forall t v, In t (e_traces _ _ _ log) -> bind (mapM (wevent log) t) (fun es => Ok (mkBVariant _ _ _ 1 es)) = Ok v ->
      exists t', mapM revent (b_events _ _ _ v) = Ok t' /\ Forall2 (event_turns date f32 f64 nanos of_nanos date_eqb f32_eqb f64_eqb log) t t').
    { intros t v Ht. destruct (mapM (wevent log) t) as [es|] eqn:W; cbn [bind]; [|discriminate]. intros [= <-].
      exact (mapM_chain _ revent _ _ _ (fun e b He H => event_trip log e b (N3 t e Ht He) H) W). }
    destruct (mapM_chain _ _ _ _ _ HT T) as (ts & -> & FT).
    cbn [bind]. eexists. split; [reflexivity|]. split; cbn [e_classifiers e_exts e_props e_globals e_traces]; rewrite ?map_id; auto.
  Qed.
End Proofs.
