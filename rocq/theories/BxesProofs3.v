(** Proofs about BXES files: when files can be written and read, and when nothing changes. *)
From Coq Require Import Permutation.
From Verif Require Import Py PyFacts HashModel RXesModel RXesProofs PnmlProofs BxesModel BxesSpec BxesProofs BxesProofs2.

Section Proofs.
  Variables date f32 f64 other : Type.
  Variables (nanos : date -> option Z) (of_nanos : Z -> date).
  Variables (date_eqb : date -> date -> bool) (f32_eqb : f32 -> f32 -> bool) (f64_eqb : f64 -> f64 -> bool).
  Notation epv := (epv date f32 f64).
  Notation elog := (elog date f32 f64).
  Notation eevent := (eevent date f32 f64).
  Notation bval := (bval f32 f64 other).
  Notation bevent := (bevent f32 f64 other).
  Notation blog := (blog f32 f64 other).
  Notation wval := (payload_value_to_bxes_value date f32 f64 other nanos).
  Notation rval := (bxes_value_to_payload_value date f32 f64 other of_nanos).
  Notation wpair := (kv_pair_to_bxes_pair date f32 f64 other nanos).
  Notation rpair := (read_pair date f32 f64 other of_nanos).
  Notation rpairs := (read_pairs date f32 f64 other of_nanos).
  Notation turns := (turns date f32 f64 nanos of_nanos).
  Notation table_turns := (table_turns date f32 f64 nanos of_nanos).
  Notation default := (default date f32 f64 date_eqb f32_eqb f64_eqb).
  Notation fits := (fits date f32 f64 nanos).
  Notation notdef := (is_not_default date f32 f64 date_eqb f32_eqb f64_eqb).
  Notation wevent := (create_bxes_event date f32 f64 other nanos date_eqb f32_eqb f64_eqb).
  Notation revent := (create_xes_event date f32 f64 other of_nanos).
  Notation wglobals := (create_bxes_globals date f32 f64 other nanos).
  Notation wtraces := (create_bxes_traces date f32 f64 other nanos date_eqb f32_eqb f64_eqb).
  Notation wlog := (write_event_log_to_bxes date f32 f64 other nanos date_eqb f32_eqb f64_eqb).
  Notation rlog := (read_bxes_into_xes_log date f32 f64 other of_nanos).
  Notation log_turns := (log_turns date f32 f64 nanos of_nanos date_eqb f32_eqb f64_eqb).
  Notation tables := (tables date f32 f64).

  Notation wscope := (fun sc : pystr * list (pystr * epv) =>
    bind (parse_entity_kind (fst sc)) (fun k => bind (mapM wpair (snd sc)) (fun kvs => Ok (k, kvs)))).
  Notation rscope := (fun kg : bkind * list (bval * bval) => bind (rpairs (snd kg)) (fun g => Ok (global_type_to_string (fst kg), g))).
  Notation known_scopes := (known_scopes date f32 f64).
  Notation dates_fit := (dates_fit date f32 f64 nanos date_eqb f32_eqb f64_eqb).

  (** * When a file is written *)
  Lemma pairs_ok l : (exists ps, mapM wpair l = Ok ps) <-> forall k v, In (k, v) l -> fits v.
  Proof.
    rewrite <- mapM_all. split.
    - intros H k v Hx. apply H in Hx. apply wpair_ok in Hx. exact Hx.
    - intros H [k v] Hx. apply wpair_ok. exact (H k v Hx).
  Qed.
  Lemma pairs_err l e : mapM wpair l = Err e -> e = AssertionErr.
  Proof. intros H. apply (mapM_err wpair (fun e => e = AssertionErr) l) in H; [exact H|]. intros x e' _. apply wpair_err. Qed.
  Lemma bind_ok {A B} (r : result A) (f : A -> result B) : (exists y, bind r f = Ok y) <-> exists x, r = Ok x /\ exists y, f x = Ok y.
  Proof. destruct r as [x|e]; cbn; split; [eauto|intros (x' & [= <-] & H); exact H|intros (y & H); discriminate|intros (x & H & _); discriminate]. Qed.
  Lemma scope_ok s g : (exists x, wscope (s, g) = Ok x) <-> (s = str "event" \/ s = str "trace" \/ s = str "log") /\ forall k v, In (k, v) g -> fits v.
  Proof.
    cbn [fst snd]. rewrite bind_ok, <- kind_ok, <- pairs_ok. split.
    - intros (k & K & H). apply bind_ok in H. destruct H as (ps & P & _). eauto.
    - intros ((k & K) & ps & P). exists k. split; [exact K|]. apply bind_ok. eauto.
  Qed.
  Lemma in_sort {V} (x : pystr * V) l : In x (sort_by_first l) <-> In x l.
  Proof. split; apply Permutation_in; [apply Permutation_sym|]; apply sort_perm. Qed.
  Lemma globals_ok log : (exists gs, wglobals log = Ok gs) <-> known_scopes log /\ forall s g k v, In (s, g) (e_globals _ _ _ log) -> In (k, v) g -> fits v.
  Proof.
    unfold create_bxes_globals. rewrite sort_scopes, mapM_map, <- mapM_all. split.
    - intros H. assert (H' : forall s g, In (s, g) (e_globals _ _ _ log) -> (s = str "event" \/ s = str "trace" \/ s = str "log") /\ forall k v, In (k, v) g -> fits v).
      { intros s g Hs. apply in_sort in Hs. apply H in Hs. apply scope_ok in Hs. destruct Hs as [K F]. split; [exact K|]. intros k v Hk. apply (F k v), in_sort, Hk. }
      split; [intros s g Hs; apply (H' s g Hs)|]. intros s g k v Hs. apply (H' s g Hs).
    - intros [K F] [s g] Hs. apply (proj1 (in_sort (s, g) _)) in Hs. apply scope_ok. split; [apply (K s g Hs)|]. intros k v Hk. apply (proj1 (in_sort (k, v) _)) in Hk. apply (F s g k v Hs Hk).
  Qed.
  Lemma globals_err log e : wglobals log = Err e ->
    (e = AssertionErr /\ ~ (forall s g k v, In (s, g) (e_globals _ _ _ log) -> In (k, v) g -> fits v)) \/ (e = ValueError /\ ~ known_scopes log).
  Proof.
    unfold create_bxes_globals. rewrite sort_scopes, mapM_map. intros H.
    pattern e. revert H. apply mapM_err. intros [s g] e' Hs. apply (proj1 (in_sort (s, g) _)) in Hs. cbn [fst snd].
    destruct (parse_entity_kind s) as [k|e2] eqn:K; cbn [bind].
    - destruct (mapM wpair (sort_by_first g)) as [ps|e2] eqn:P; cbn [bind]; [discriminate|]. intros [= <-]. left. split; [eapply pairs_err, P|].
      intros F. assert (X : exists ps, mapM wpair (sort_by_first g) = Ok ps) by (apply pairs_ok; intros k0 v Hk; apply (proj1 (in_sort (k0, v) _)) in Hk; exact (F s g k0 v Hs Hk)).
      destruct X as (ps & X). rewrite X in P. discriminate.
    - intros [= <-]. right. split.
      + revert K. unfold parse_entity_kind. repeat match goal with |- context [if ?b then _ else _] => destruct b end; try discriminate. intros [= <-]. reflexivity.
      + intros S. specialize (S s g Hs). apply kind_ok in S. destruct S as (k & S). rewrite S in K. discriminate.
  Qed.
  Lemma event_ok log e : (exists b, wevent log e = Ok b) <-> nanos (e_time _ _ _ e) <> None /\ forall k v, In (k, v) (e_payload _ _ _ e) -> ~ default log k v -> fits v.
  Proof.
    unfold create_bxes_event. rewrite bind_ok. unfold timestamp_nanos. split.
    - intros (z & Z0 & H). apply bind_ok in H. destruct H as (ps & P & _). split; [destruct (nanos (e_time _ _ _ e)); [discriminate|discriminate Z0]|].
      intros k v Hk D. apply (proj1 (pairs_ok _) (ex_intro _ ps P) k v). apply filter_In. split; [apply in_sort, Hk|apply notdef_iff, D].
    - intros [Z0 H]. destruct (nanos (e_time _ _ _ e)) as [z|]; [|contradiction]. exists z. split; [reflexivity|]. apply bind_ok.
      assert (X : exists ps, mapM wpair (filter (notdef log) (sort_by_first (e_payload _ _ _ e))) = Ok ps).
      { apply pairs_ok. intros k v Hk. apply filter_In in Hk. destruct Hk as [Hk D]. apply (proj1 (in_sort (k, v) _)) in Hk. apply (H k v Hk), notdef_iff, D. }
      destruct X as (ps & X). exists ps. split; [exact X|]. eauto.
  Qed.
  Lemma event_err log e x : wevent log e = Err x -> x = AssertionErr.
  Proof.
    unfold create_bxes_event, timestamp_nanos. destruct (nanos (e_time _ _ _ e)); cbn [bind]; [|intros [= <-]; reflexivity].
    destruct (mapM wpair _) as [ps|e2] eqn:P; cbn [bind]; [discriminate|]. intros [= <-]. eapply pairs_err, P.
  Qed.
  Lemma traces_ok log : (exists vs, wtraces log = Ok vs) <-> forall t e, In t (e_traces _ _ _ log) -> In e t -> exists b, wevent log e = Ok b.
  Proof.
    unfold create_bxes_traces. rewrite <- mapM_all. split.
    - intros H t e Ht He. apply H in Ht. apply bind_ok in Ht. destruct Ht as (es & E & _). exact (proj2 (mapM_all _ _) (ex_intro _ es E) e He).
    - intros H t Ht. apply bind_ok. destruct (proj1 (mapM_all (wevent log) t) (fun e He => H t e Ht He)) as (es & E). exists es. split; [exact E|]. eauto.
  Qed.
  Lemma when_proof log : (exists b, wlog log = Ok b) <-> known_scopes log /\ dates_fit log.
  Proof.
    unfold write_event_log_to_bxes, BxesSpec.dates_fit. rewrite bind_ok. split.
    - intros (gs & G & H). apply bind_ok in H. destruct H as (ps & P & H). apply bind_ok in H. destruct H as (vs & V & _).
      destruct (proj1 (globals_ok log) (ex_intro _ gs G)) as [K F]. split; [exact K|]. split; [exact F|]. split; [exact (proj1 (pairs_ok _) (ex_intro _ ps P))|].
      intros t e Ht He. apply event_ok. exact (proj1 (traces_ok log) (ex_intro _ vs V) t e Ht He).
    - intros (K & F & P & T). destruct (proj2 (globals_ok log) (conj K F)) as (gs & G). exists gs. split; [exact G|].
      apply bind_ok. destruct (proj2 (pairs_ok _) P) as (ps & Q). exists ps. split; [exact Q|]. apply bind_ok.
      destruct (proj2 (traces_ok log)) as (vs & V). { intros t e Ht He. apply event_ok. exact (T t e Ht He). } exists vs. split; [exact V|]. eauto.
  Qed.
  Lemma errors_proof log e : wlog log = Err e -> (e = AssertionErr /\ ~ dates_fit log) \/ (e = ValueError /\ ~ known_scopes log).
  Proof.
    intros H. destruct (wglobals log) as [gs|e2] eqn:G.
    - left. assert (A : e = AssertionErr).
      { revert H. unfold write_event_log_to_bxes. rewrite G. cbn [bind]. destruct (mapM wpair _) as [ps|e2] eqn:P; cbn [bind]; [|intros [= <-]; eapply pairs_err, P].
        destruct (wtraces log) as [vs|e2] eqn:V; cbn [bind]; [discriminate|]. intros [= <-]. revert V. unfold create_bxes_traces.
        apply (mapM_err _ (fun e => e = AssertionErr)). intros t e He. destruct (mapM (wevent log) t) as [es|e3] eqn:E; cbn [bind]; [discriminate|]. intros [= <-].
        revert E. apply (mapM_err _ (fun e => e = AssertionErr)). intros x e _. apply event_err. }
      split; [exact A|]. intros D. destruct (proj2 (when_proof log)) as (b & W); [|rewrite W in H; discriminate].
      split; [|exact D]. apply (globals_ok log). eauto.
    - assert (e = e2) as ->. { revert H. unfold write_event_log_to_bxes. rewrite G. cbn [bind]. intros [= <-]. reflexivity. }
      destruct (globals_err log e2 G) as [[-> F]|[-> K]]; [left; split; [reflexivity|]; intros D; apply F, D|right; split; [reflexivity|exact K]].
  Qed.

  (** * When nothing changes *)
  Lemma turns_stays v w : stays date f32 f64 nanos of_nanos v -> turns v w -> w = v.
  Proof. intros [S1 S2] T. destruct T as [d z E|z|v _ _]; [rewrite (S2 d z eq_refl E); reflexivity|contradiction (S1 z eq_refl)|reflexivity]. Qed.
  Lemma table_stays out m m' : (forall k v, In (k, v) m -> stays date f32 f64 nanos of_nanos v /\ ~ out k v) -> table_turns out m m' -> same_table m m'.
  Proof.
    intros S T k. specialize (T k). destruct (dget str_eq_dec m k) as [v|] eqn:E; [|symmetry; exact T]. apply dget_In in E. destruct (S k v E) as [S1 S2].
    destruct T as [[O _]|[_ (w & T & V)]]; [contradiction|]. apply turns_stays in T; [|exact S1]. subst w. symmetry. exact V.
  Qed.
  Lemma exact_proof log log' : all_stays date f32 f64 nanos of_nanos date_eqb f32_eqb f64_eqb log -> log_turns log log' -> same_log date f32 f64 log log'.
  Proof.
    intros (S1 & S2 & S3) [T1 T2 T3 T4 T5]. split; [exact T1|exact T2| | |].
    - revert T3 S2. generalize (e_props _ _ _ log) (e_props _ _ _ log'). intros l l' F. induction F as [|[k v] [k' v'] l l' [E T] F IH]; intros S2; [reflexivity|].
      cbn [fst snd] in E, T. subst k'. apply turns_stays in T; [|apply (S2 k v); left; reflexivity]. subst v'. f_equal. apply IH. intros k0 v0 H. apply (S2 k0 v0). right. exact H.
    - intros s. specialize (T4 s). destruct (dget str_eq_dec (e_globals _ _ _ log) s) as [g|] eqn:E; [|exact T4]. destruct T4 as (g' & V & T). exists g'. split; [exact V|].
      eapply table_stays; [|exact T]. intros k v Hk. apply dget_In in E. split; [exact (S1 s g k v E Hk)|intros []].
    - revert T5 S3. generalize (e_traces _ _ _ log) (e_traces _ _ _ log'). intros l l' F. induction F as [|t t' l l' Ft F IH]; intros S3; constructor.
      2:{ apply IH. intros t0 e Ht. apply (S3 t0 e). right. exact Ht. }
      assert (S4 := fun e => S3 t e (or_introl eq_refl)). clear -Ft S4. induction Ft as [|e e' t t' (En & (z & Ez & Et) & Ep) F IH]; constructor.
      + destruct (S4 e (or_introl eq_refl)) as [Sz Sp]. split; [exact En|]. split; [rewrite Et; exact (Sz z Ez)|]. eapply table_stays; [|exact Ep]. exact Sp.
      + apply IH. intros e0 H. apply S4. right. exact H.
  Qed.

  (** * When a file can be read *)
  Lemma rpair_ok k v : (exists q, rpair (k, v) = Ok q) <-> is_string f32 f64 other k /\ understood f32 f64 other v.
  Proof.
    unfold read_pair. cbn [fst snd]. rewrite bind_ok, <- string_ok, <- (rval_ok _ _ _ _ of_nanos). split.
    - intros (s & S & H). apply bind_ok in H. destruct H as (w & W & _). eauto.
    - intros ((s & S) & w & W). exists s. split; [exact S|]. apply bind_ok. eauto.
  Qed.
  Lemma rpairs_list l : (exists q, mapM rpair l = Ok q) <-> pairs_fine f32 f64 other l.
  Proof.
    rewrite <- mapM_all. split; [intros H k v Hx; apply rpair_ok, H, Hx|]. intros H [k v] Hx. apply rpair_ok, H, Hx.
  Qed.
  Lemma rpairs_ok l : (exists q, rpairs l = Ok q) <-> pairs_fine f32 f64 other l.
  Proof. rewrite rpairs_eq, bind_ok, <- rpairs_list. split; [intros (q & Q & _); eauto|intros (q & Q); exists q; eauto]. Qed.
  Lemma member_all {A} (x : A) o : member x o <-> In x (all_of o).
  Proof. unfold member, all_of. destruct o as [l|]; split; [intros (l' & [= <-] & H); exact H|eauto|intros (l' & H & _); discriminate|intros []]. Qed.
  Lemma revent_ok e : (exists x, revent e = Ok x) <-> is_string f32 f64 other (b_name _ _ _ e) /\
    forall k w, member (k, w) (b_attributes _ _ _ e) -> is_string f32 f64 other k /\ understood f32 f64 other w.
  Proof.
    unfold create_xes_event. rewrite bind_ok, <- string_ok. split.
    - intros (s & S & H). split; [eauto|]. apply bind_ok in H. destruct H as (p & P & _). intros k w Hm. destruct (b_attributes _ _ _ e) as [l|]; [|destruct Hm as (l & H & _); discriminate].
      destruct Hm as (l' & [= <-] & Hm). exact (proj1 (rpairs_ok l) (ex_intro _ p P) k w Hm).
    - intros [(s & S) H]. exists s. split; [exact S|]. apply bind_ok. destruct (b_attributes _ _ _ e) as [l|]; [|eauto].
      destruct (proj2 (rpairs_ok l)) as (p & P); [|eauto]. intros k w Hm. apply H. exists l. auto.
  Qed.
  Lemma read_proof b : (exists log, rlog b = Ok log) <-> readable f32 f64 other b.
  Proof.
    unfold read_bxes_into_xes_log. rewrite bind_ok. split.
    - intros (cs & C & H). apply bind_ok in H. destruct H as (ps & P & H). apply bind_ok in H. destruct H as (xs & X & H). apply bind_ok in H. destruct H as (gs & G & H).
      apply bind_ok in H. destruct H as (ts & T & _). assert (C' := proj2 (mapM_all _ _) (ex_intro _ cs C)). assert (X' := proj2 (mapM_all _ _) (ex_intro _ xs X)).
      rewrite globals_loop in G. assert (G' : exists qs, mapM rscope (all_of (bl_globals _ _ _ b)) = Ok qs). { destruct (mapM rscope _); [eauto|discriminate]. }
      assert (G2 := proj2 (mapM_all _ _) G'). assert (T' := proj2 (mapM_all _ _) (ex_intro _ ts T)). split.
      + intros ks n Hm. apply member_all in Hm. specialize (C' _ Hm). cbn [fst snd] in C'. apply bind_ok in C'. destruct C' as (s & S & C'). apply bind_ok in C'.
        destruct C' as (zs & Z0 & _). split; [apply string_ok; eauto|]. intros k Hk. apply string_ok. exact (proj2 (mapM_all _ _) (ex_intro _ zs Z0) k Hk).
      + intros x Hm. apply member_all in Hm. specialize (X' _ Hm). cbn beta in X'. apply bind_ok in X'. destruct X' as (s & S & X'). apply bind_ok in X'. destruct X' as (s2 & S2 & X').
        apply bind_ok in X'. destruct X' as (s3 & S3 & _). rewrite <- !string_ok. eauto 6.
      + intros k v Hm. apply member_all in Hm. exact (proj1 (rpairs_list _) (ex_intro _ ps P) k v Hm).
      + intros kind l Hm. apply member_all in Hm. specialize (G2 _ Hm). cbn [fst snd] in G2. apply bind_ok in G2. destruct G2 as (q & Q & _). apply rpairs_ok. eauto.
      + intros v e Hv He. apply revent_ok. specialize (T' _ Hv). cbn beta in T'. exact (proj2 (mapM_all _ _) T' e He).
    - intros [C X P G T]. assert (C' : exists cs, mapM (fun c => bind (string_or_err f32 f64 other (snd c)) (fun n => bind (mapM (string_or_err f32 f64 other) (fst c)) (fun ks => Ok (mkXCls n ks)))) (all_of (bl_classifiers _ _ _ b)) = Ok cs).
      { apply mapM_all. intros [ks n] Hm. apply member_all in Hm. destruct (C ks n Hm) as [Cn Ck]. cbn [fst snd]. apply bind_ok. apply string_ok in Cn. destruct Cn as (s & S). exists s.
        split; [exact S|]. apply bind_ok. destruct (proj1 (mapM_all (string_or_err f32 f64 other) ks)) as (zs & Z0); [|eauto]. intros k Hk. apply string_ok, Ck, Hk. }
      destruct C' as (cs & C'). exists cs. split; [exact C'|]. apply bind_ok. destruct (proj2 (rpairs_list (all_of (bl_props _ _ _ b)))) as (ps & P').
      { intros k v Hm. apply member_all in Hm. exact (P k v Hm). } exists ps. split; [exact P'|]. apply bind_ok.
      match goal with |- exists x, ?r = Ok x /\ _ => assert (X' : exists x, r = Ok x) end.
      { apply mapM_all. intros x Hm. apply member_all in Hm. destruct (X x Hm) as (X1 & X2 & X3). apply string_ok in X1, X2, X3. destruct X1 as (s1 & ->), X2 as (s2 & ->), X3 as (s3 & ->). cbn [bind]. eauto. }
      destruct X' as (xs & X'). exists xs. split; [exact X'|]. apply bind_ok. rewrite globals_loop.
      destruct (proj1 (mapM_all rscope (all_of (bl_globals _ _ _ b)))) as (qs & Q). { intros [kind l] Hm. apply member_all in Hm. apply bind_ok. cbn [fst snd].
        destruct (proj2 (rpairs_ok l) (G kind l Hm)) as (q & Q). eauto. }
      exists (put_all qs []). rewrite Q. split; [reflexivity|]. apply bind_ok.
      destruct (proj1 (mapM_all (fun v => mapM revent (b_events _ _ _ v)) (bl_variants _ _ _ b))) as (ts & T'). { intros v Hv. apply mapM_all. intros e He. apply revent_ok. exact (T v e Hv He). }
      exists ts. eauto.
  Qed.
  (** Reading a file gives one trace for each variant. *)
  Lemma variants_proof b log : rlog b = Ok log -> map (@length _) (e_traces _ _ _ log) = map (fun v => length (b_events _ _ _ v)) (bl_variants _ _ _ b).
  Proof.
    unfold read_bxes_into_xes_log. do 4 (match goal with |- bind ?r _ = _ -> _ => destruct r; cbn [bind]; [|discriminate] end).
    destruct (mapM _ (bl_variants _ _ _ b)) as [ts|] eqn:T; cbn [bind]; [|discriminate]. intros [= <-]. cbn [e_traces]. apply mapM_ok_inv in T.
    induction T as [|v t vs ts E T IH]; cbn [map]; [reflexivity|]. rewrite IH. f_equal. apply mapM_ok_inv in E. symmetry. clear -E. induction E; cbn; auto.
  Qed.
End Proofs.
