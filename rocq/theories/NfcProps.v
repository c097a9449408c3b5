(** Relations of the alpha++ NFC algorithm (C85) and the reduction of implied relations (C86). *)
From Verif Require Import Py PyFacts InfoModel InfoSpec InfoProofs ReplayModel RInfoModel RInfoSpec RInfoProofs AlphaModel AlphaSpec AlphaProps PlusSpec PlusProofs NfcModel NfcSpec NfcProofs NfcProofs2.

(** The provider after relations were added by hand. *)
Definition with_more (p : nprov) (more : list (pystr * pystr)) : nprov := fold_left (fun p r => add_causal p (fst r) (snd r)) more p.
Lemma with_more_proof more : forall p, np_info (with_more p more) = np_info p /\ np_log (with_more p more) = np_log p /\ np_triangles (with_more p more) = np_triangles p /\
  forall r, In r (np_more (with_more p more)) <-> In r (np_more p) \/ In r more.
Proof.
  induction more as [|[a b] more IH]; intros p; [cbn; tauto|]. cbn [with_more fold_left fst snd]. destruct (IH (add_causal p a b)) as (A & B & C & D). unfold with_more in *.
  rewrite A, B, C. split; [reflexivity|]. split; [reflexivity|]. split; [reflexivity|]. intros r. rewrite D. unfold add_causal. cbn [np_more In].
  destruct (in_dec pair_eq_dec (a, b) (np_more p)) as [H|H]; [|rewrite in_app_iff; cbn [In]; tauto]. split; [tauto|]. intros [X|[<-|X]]; tauto.
Qed.
Lemma before_more log ign more more' a b : (forall r, In r more <-> In r more') -> (nfc_before log ign more a b <-> nfc_before log ign more' a b).
Proof. intros H. unfold nfc_before. rewrite H. tauto. Qed.
Lemma forked_more log ign more more' a b : (forall r, In r more <-> In r more') -> (forked log ign more a b <-> forked log ign more' a b).
Proof. intros H. unfold forked. split; intros [X (c & Y1 & Y2 & Y3)]; (split; [exact X|]); exists c; (split; [exact Y1|]); rewrite (before_more _ _ _ _ c a H), (before_more _ _ _ _ c b H) in *; auto. Qed.
Lemma joined_more log ign more more' a b : (forall r, In r more <-> In r more') -> (joined log ign more a b <-> joined log ign more' a b).
Proof. intros H. unfold joined. split; intros [X (c & Y1 & Y2 & Y3)]; (split; [exact X|]); exists c; (split; [exact Y1|]); rewrite (before_more _ _ _ _ a c H), (before_more _ _ _ _ b c H) in *; auto. Qed.
Lemma later_more log ign more more' a b : (forall r, In r more <-> In r more') -> (later log ign more a b <-> later log ign more' a b).
Proof.
  intros H. unfold later. split; intros (X & Y & l1 & mid & l2 & Z1 & Z2 & Z3 & Z4 & Z5); (split; [exact X|]); (split; [exact Y|]); exists l1, mid, l2; (do 4 (split; [assumption|]));
    intros c K1 K2; destruct (Z5 c K1 K2) as [K3 K4]; rewrite (forked_more _ _ _ _ c a H), (joined_more _ _ _ _ c a H) in *; auto.
Qed.

(** The provider is made exactly when no trace has less than two events; then each relation says what it is meant to say, for
    any order of hash tables, whatever was added. *)
Theorem C85_relations : forall ord, any_order ord -> forall log ign,
  (forall t, In t log -> 2 <= length t) ->
  exists p0, nfc_provider (r_create_from ord log false ign) log = Ok p0 /\ forall more, let p := with_more p0 more in
  (forall a b, nfc_direct p a b = true <-> follows log ign a b) /\
  (forall a b, nfc_triangle p a b = true <-> triangle log a b) /\
  (forall a b, nfc_causal p a b = true <-> nfc_before log ign more a b) /\
  (forall a b, nfc_parallel p a b = true <-> nfc_beside log ign a b) /\
  (forall a b, nfc_unrelated p a b = true <-> apart log ign a b) /\
  (forall a b, left_triangle ord p a b = true <-> forked log ign more a b) /\
  (forall a b, right_triangle ord p a b = true <-> joined log ign more a b) /\
  (forall a b, double_arrow ord p a b = true <-> later log ign more a b).
Proof.
  intros ord O log ign L. unfold nfc_provider, calculate_triangle_relations. destruct (triangles_proof log [] L) as (tri & E & Ht). rewrite E. cbn [bind]. exists (mkNProv [] (r_create_from ord log false ign) tri log). split; [reflexivity|].
  intros more. set (p := with_more _ more). destruct (with_more_proof more (mkNProv [] (r_create_from ord log false ign) tri log)) as (A & B & C & D). fold p in A, B, C, D. cbn [np_info np_log np_triangles np_more In] in A, B, C, D.
  assert (M : forall r, In r (np_more p) <-> In r more) by (intros r; rewrite D; tauto).
  assert (T : forall a b, In (a, b) (np_triangles p) <-> triangle log a b) by (intros a b; rewrite C, Ht; cbn [In]; tauto).
  split; [|split; [|split; [|split; [|split; [|split; [|split]]]]]]; intros a b.
  - apply (direct_proof ord O log ign p A).
  - apply (triangle_proof log p T).
  - rewrite (causal_proof ord O log ign p A T). apply before_more, M.
  - apply (parallel_proof ord O log ign p A T).
  - apply (unrelated_proof ord O log ign p A).
  - rewrite (left_proof ord O log ign p A T). apply forked_more, M.
  - rewrite (right_proof ord O log ign p A T). apply joined_more, M.
  - rewrite (double_arrow_proof ord O log ign p A B T). apply later_more, M.
Qed.
Print Assumptions C85_relations.
Theorem C85_short_trace_panics : forall info log t, In t log -> length t < 2 -> nfc_provider info log = rpanic.
Proof. intros info log t H L. unfold nfc_provider, calculate_triangle_relations. rewrite triangles_panic by eauto. reflexivity. Qed.
Print Assumptions C85_short_trace_panics.

Definition nl_log : list (list pystr) := [[str "a"; str "x"; str "c"; str "b"]; [str "y"; str "d"; str "y"; str "e"]].
Definition nl_prov : nprov := match nfc_provider (r_create_from as_it_is nl_log false None) nl_log with Ok p => p | Err _ => mkNProv [] (r_create_from as_it_is [] false None) [] [] end.
Example C85_case : (forall t, In t nl_log -> 2 <= length t) /\
  double_arrow as_it_is nl_prov (str "a") (str "b") = true /\ double_arrow as_it_is nl_prov (str "a") (str "d") = false /\ double_arrow as_it_is nl_prov (str "d") (str "e") = true /\
  nfc_causal nl_prov (str "y") (str "d") = true /\ nfc_causal nl_prov (str "d") (str "y") = true /\ left_triangle as_it_is nl_prov (str "a") (str "c") = false /\
  left_triangle as_it_is (with_more nl_prov [(str "x", str "a")]) (str "a") (str "c") = true.
Proof. split; [intros t [<-|[<-|[]]]; cbn; lia|]. repeat split; vm_compute; reflexivity. Qed.

(** Without relations added by hand, two names are related in exactly one of three ways. *)
Theorem C85_exclusive : forall log ign a b,
  let before := nfc_before log ign [] a b \/ nfc_before log ign [] b a in let beside := nfc_beside log ign a b in let away := apart log ign a b in
  ~ (before /\ beside) /\ ~ (before /\ away) /\ ~ (beside /\ away) /\ ((~ before -> ~ beside -> away) /\ (~ before -> ~ away -> ~ ~ beside)).
Proof. intros log ign a b. cbn zeta. unfold nfc_before, nfc_beside, apart, unrelated. cbn [In]. tauto. Qed.
Print Assumptions C85_exclusive.
Example C85_exclusive_case : nfc_before [[str "a"; str "b"]] None [] (str "a") (str "b").
Proof. right. split; [left; reflexivity|]. left. cbn. intros [H|[]]. discriminate. Qed.
(** It is not so that at most one of two names comes before the other, nor, with relations added, that related names are not
    apart. *)
Theorem C85_one_way_refuted : exists log a b, a <> b /\ nfc_before log None [] a b /\ nfc_before log None [] b a.
Proof.
  exists [[str "a"; str "b"; str "a"]], (str "a"), (str "b"). split; [discriminate|]. assert (T : triangle [[str "a"; str "b"; str "a"]] (str "a") (str "b")) by (exists [], []; left; reflexivity).
  split; right; (split; [cbn; auto|]); auto.
Qed.
Print Assumptions C85_one_way_refuted.
Theorem C85_added_refuted : exists log more a b, nfc_before log None more a b /\ apart log None a b.
Proof. exists [], [(str "a", str "b")], (str "a"), (str "b"). split; [left; left; reflexivity|]. split; intros []. Qed.
Print Assumptions C85_added_refuted.

(** What was answered once is answered for ever, and a question changes no other answer. *)
Theorem C85_cache : forall ord p c a b v c', right_double_arrow ord p c a b = (v, c') ->
  (forall p', right_double_arrow ord p' c' a b = (v, c')) /\
  (forall p' x y w, cache_get c x y = Some w -> fst (right_double_arrow ord p' c' x y) = w) /\
  (forall p' x y, (x, y) <> (a, b) -> fst (right_double_arrow ord p' c' x y) = fst (right_double_arrow ord p' c x y)) /\
  (cache_get c a b = None -> v = double_arrow ord p a b).
Proof.
  intros ord p c a b v c' H. destruct (arrow_keeps ord p c a b v c' H) as (A & B & C & D). split; [|split; [|split; [|exact D]]].
  - intros p'. unfold right_double_arrow, cache_put. rewrite A. reflexivity.
  - intros p' x y w E. unfold right_double_arrow. rewrite (B x y w E). reflexivity.
  - intros p' x y N. unfold right_double_arrow. rewrite (C x y N). reflexivity.
Qed.
Print Assumptions C85_cache.
(** With an empty cache and no relations added in between, answers of any number of questions are those of the relation. *)
Theorem C85_answers : forall ord p qs c, (forall x y w, cache_get c x y = Some w -> w = double_arrow ord p x y) ->
  fst (fold_left (fun '(vs, c) q => let '(v, c') := right_double_arrow ord p c (fst q) (snd q) in (vs ++ [v], c')) qs ([], c)) = map (fun q => double_arrow ord p (fst q) (snd q)) qs.
Proof.
  intros ord p qs c H. enough (G : forall qs c vs, (forall x y w, cache_get c x y = Some w -> w = double_arrow ord p x y) ->
    fst (fold_left (fun '(vs, c) q => let '(v, c') := right_double_arrow ord p c (fst q) (snd q) in (vs ++ [v], c')) qs (vs, c)) = vs ++ map (fun q => double_arrow ord p (fst q) (snd q)) qs) by apply (G qs c [] H).
  clear. induction qs as [|[a b] qs IH]; intros c vs H; [cbn; rewrite app_nil_r; reflexivity|]. cbn [fold_left map fst snd]. destruct (right_double_arrow ord p c a b) as [v c'] eqn:E.
  assert (V : v = double_arrow ord p a b).
  { unfold right_double_arrow in E. destruct (cache_get c a b) as [w|] eqn:G; injection E as <- _; [apply H, G|reflexivity]. }
  rewrite IH; [rewrite <- app_assoc, V; reflexivity|]. intros x y w G. destruct (pair_eq_dec (x, y) (a, b)) as [X|X].
  - injection X as -> ->. destruct (arrow_keeps ord p c a b v c' E) as (A & _). congruence.
  - destruct (arrow_keeps ord p c a b v c' E) as (_ & _ & C & _). rewrite C in G by exact X. apply H, G.
Qed.
Print Assumptions C85_answers.
(** After a relation was added, answers can be those of before. *)
Theorem C85_current_refuted : exists ord p more c a b, any_order ord /\ (forall x y w, cache_get c x y = Some w -> w = double_arrow ord p x y) /\
  fst (right_double_arrow ord (with_more p more) c a b) <> double_arrow ord (with_more p more) a b.
Proof.
  exists as_it_is, nl_prov, [(str "x", str "a")], [((str "a", str "b"), true)], (str "a"), (str "b"). split; [exact as_it_is_any|]. split.
  - intros x y w. unfold cache_get. cbn [dget]. destruct (pair_eq_dec (x, y) (str "a", str "b")) as [E|E]; [|discriminate]. injection E as -> ->. intros H. injection H as <-. vm_compute. reflexivity.
  - vm_compute. discriminate.
Qed.
Print Assumptions C85_current_refuted.

(** The closure ends exactly if, for all classes which are not directly related, the second can be reached from the first or no
    walk from the first goes on for ever; then it has exactly those pairs of such classes which are connected by a walk. *)
Theorem C86_closure : forall ord, any_order ord -> forall relations, let R := fun a b => In (a, b) relations in
  let asked := fun a b => touched relations a /\ touched relations b /\ ~ R a b in
  let ends := forall a b, asked a b -> leads R a b \/ ~ endless R a in
  (ends -> exists fuel0 closure, (forall fuel, fuel0 <= fuel -> w3_closure ord fuel relations = Ok closure) /\
     forall a b, has_child closure a b = true <-> asked a b /\ leads R a b) /\
  (~ ends -> forall fuel, w3_closure ord fuel relations = Err Diverges) /\
  (forall fuel closure, w3_closure ord fuel relations = Ok closure -> ends).
Proof.
  intros ord O rel. cbn zeta. split; [|split].
  - intros A. destruct (closure_proof ord O rel A) as (f & c & E & H). exists f, c. split; [exact E|exact H].
  - intros A fuel. destruct (w3_closure ord fuel rel) as [c|e] eqn:E; [exfalso; apply A, (ended ord O rel fuel c E)|]. rewrite (closure_err ord rel fuel e E). reflexivity.
  - intros fuel c E. exact (ended ord O rel fuel c E).
Qed.
Print Assumptions C86_closure.
Definition w3_case : list (pystr * pystr) := [(str "a", str "b"); (str "b", str "c"); (str "a", str "c"); (str "c", str "d")].
Example C86_case : w3_closure as_it_is 20 w3_case = Ok [(str "a", [str "d"]); (str "b", [str "d"])].
Proof. vm_compute. reflexivity. Qed.
(** It does not always end: here a walk from c goes on for ever between a and b and never comes back to c. *)
Theorem C86_ends_refuted : exists relations, forall ord fuel, any_order ord -> w3_closure ord fuel relations = Err Diverges.
Proof.
  exists [(str "a", str "b"); (str "b", str "a"); (str "c", str "a")]. intros ord fuel O. set (rel := [(str "a", str "b"); (str "b", str "a"); (str "c", str "a")]).
  apply (closure_diverges ord O rel (str "c") (str "c")).
  - split; [exists (str "a"); left; cbn; auto|]. split; [exists (str "a"); left; cbn; auto|]. unfold R, rel. cbn. intuition discriminate.
  - intros (n & W). assert (H : forall m x y, walk (R rel) m x y -> m <> 0 -> y <> str "c").
    { clear. induction m as [|m IH]; intros x y W N; [congruence|]. inversion W as [|m' x' w y' Hw W']; subst. destruct m as [|m]; [|apply (IH w y W'); discriminate].
      inversion W'; subst. unfold R, rel in Hw. cbn in Hw. destruct Hw as [H|[H|[H|[]]]]; injection H as _ <-; discriminate. }
    apply (H _ _ _ W); [discriminate|reflexivity].
  - exists 1, (str "a"). split; [eapply walk_step; [|constructor]; unfold R, rel; cbn; auto|]. exists 1. eapply walk_step; [|eapply walk_step; [|constructor]]; unfold R, rel; cbn; auto.
Qed.
Print Assumptions C86_ends_refuted.
(** If the closure ends, the reduction takes nothing away, whatever the relations are. *)
Theorem C86_nothing_removed : forall ord, any_order ord -> forall fuel relations r, reduce_w3 ord fuel relations = Ok r -> r = relations.
Proof. intros ord O fuel rel r. apply (reduce_nothing ord O). Qed.
Print Assumptions C86_nothing_removed.
(** So relations which others imply are not taken away. *)
Theorem C86_reduction_refuted : exists relations a b c r, In (a, b) relations /\ In (b, c) relations /\ In (a, c) relations /\ NoDup [a; b; c] /\
  reduce_w3 as_it_is 20 relations = Ok r /\ In (a, c) r.
Proof.
  exists w3_case, (str "a"), (str "b"), (str "c"), w3_case. split; [left; reflexivity|]. split; [right; left; reflexivity|]. split; [right; right; left; reflexivity|].
  split; [repeat constructor; cbn; intuition discriminate|]. split; [vm_compute; reflexivity|right; right; left; reflexivity].
Qed.
Print Assumptions C86_reduction_refuted.
