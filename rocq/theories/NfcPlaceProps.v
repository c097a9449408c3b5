(** The net of the alpha++ NFC algorithm (C94). *)
From Coq Require Import Permutation Sorted.
From Verif Require Import Py PyFacts InfoModel InfoSpec InfoProofs HashModel ReplayModel ReplaySpec RInfoModel RInfoSpec RInfoProofs AlphaModel AlphaSpec AlphaProofs AlphaProofs4 AlphaProofs5 AlphaProofs6 AlphaProps PlusSpec PlusProofs NfcModel NfcSpec NfcProofs NfcProofs2 NfcProps NfcNetModel NfcNetSpec NfcNetProofs NfcNetProofs2 NfcNetProofs3 NfcNetProps NfcPlaceSpec NfcPlaceProofs.

Lemma long_or_short log : long_enough log \/ exists t, In t log /\ length t < 2.
Proof.
  induction log as [|t log [IH|(u & Hu & L)]]; [left; intros ? []| |right; exists u; split; [right; exact Hu|exact L]].
  destruct (le_lt_dec 2 (length t)) as [H|H]; [left; intros u [<-|Hu]; auto|right; exists t; split; [left; reflexivity|exact H]].
Qed.
Lemma provider_info info log p : nfc_provider info log = Ok p -> np_info p = info.
Proof. unfold nfc_provider. destruct (calculate_triangle_relations log); [intros E; injection E as <-; reflexivity|discriminate]. Qed.
(** A trace of less than two events is a panic. *)
Theorem C94_short_trace_panics : forall ord arrow fuel log next t, In t log -> length t < 2 -> discover_nfc ord arrow fuel log next = rpanic.
Proof.
  intros ord arrow fuel log next t Ht L. unfold discover_nfc. destruct (find_transitions_one_length_loop log) as [loops|e] eqn:E; cbn [bind].
  - rewrite (C85_short_trace_panics _ log t Ht L). reflexivity.
  - assert (X : (exists t, In t log /\ t = []) \/ forall t, In t log -> t <> []).
    { clear. induction log as [|t log [IH|IH]]; [right; intros ? []|left; destruct IH as (u & Hu & E); exists u; split; [right; exact Hu|exact E]|]. destruct t as [|x t]; [left; exists []; split; [left; reflexivity|reflexivity]|].
      right. intros u [<-|Hu]; [discriminate|auto]. }
    destruct X as [X|X]; [unfold find_transitions_one_length_loop in E; rewrite (loops_panic log X) in E; injection E as <-; reflexivity|]. destruct (loops_proof log [] (NoDup_nil _) X) as (r & Er & _). unfold find_transitions_one_length_loop in E. congruence.
Qed.
Print Assumptions C94_short_trace_panics.

Lemma triples_known ord : any_order ord -> forall log p loops fuel triples, long_enough log -> nfc_provider (r_create_from ord log false None) log = Ok p -> find_transitions_one_length_loop log = Ok loops ->
  find_triples ord fuel p loops = Ok triples ->
  (forall t, In t triples -> in_order t /\ fits_log log t) /\
  (clear_texts (loop_between log) -> forall t, In t triples <-> in_order t /\ maximal3 (loop_between log) (t_a t) (t_b t) (t_c t)).
Proof.
  intros O log p loops fuel triples L Ep El Et. assert (More := maximize_more _ _ _ _ _ _ _ Et). split.
  - destruct (C92_triples_end ord O log L) as (p' & loops' & f & r & Ep' & El' & H & G & _). assert (p' = p) by congruence. assert (loops' = loops) by congruence. subst p' loops'.
    specialize (More f). specialize (H (fuel + f) ltac:(lia)). unfold find_triples in H. assert (r = triples) by congruence. subst r. exact G.
  - intros Cl. destruct (C92_triples ord O log L Cl) as (p' & loops' & f & r & Ep' & El' & H & _ & G). assert (p' = p) by congruence. assert (loops' = loops) by congruence. subst p' loops'.
    specialize (More f). specialize (H (fuel + f) ltac:(lia)). unfold find_triples in H. assert (r = triples) by congruence. subst r. exact G.
Qed.

(** If the algorithm gives a net, it has a transition for each name of the log, a place for each of some pairs of sets of names of the log,
    no two of which have the same list of names, no other places or arcs, and no marking.  A place stands for the sets of a triple which fits,
    or for sets which are not the first two of a largest triple; and there is a place for each largest triple. *)
Theorem C94_net : forall ord, any_order ord -> forall arrow fuel log next net next', discover_nfc ord arrow fuel log next = Ok (net, next') ->
  exists sets, nfc_net (fun c => exists t, In t log /\ In c t) sets net /\
  (forall A B, In (A, B) sets -> bsorted A /\ bsorted B) /\ NoDup (map (fun s => fst s ++ snd s) sets) /\
  (forall A B, In (A, B) sets -> (exists A0 B0 C0, fits3 (loop_between log) A0 B0 C0 /\ joins3 A0 B0 C0 A B) \/
     (clear_texts (loop_between log) -> forall C, ~ maximal3 (loop_between log) A B C)) /\
  (clear_texts (loop_between log) -> forall A B C, maximal3 (loop_between log) A B C ->
     exists A' B' U V, In (A', B') sets /\ bsorted U /\ bsorted V /\ joins3 A B C U V /\ A' ++ B' = U ++ V).
Proof.
  intros ord O arrow fuel log next net next' H. destruct (long_or_short log) as [L|(t & Ht & Lt)]; [|rewrite (C94_short_trace_panics ord arrow fuel log next t Ht Lt) in H; discriminate].
  unfold discover_nfc in H. destruct (find_transitions_one_length_loop log) as [loops|e] eqn:El; [|discriminate]. cbn [bind] in H.
  destruct (nfc_provider (r_create_from ord log false None) log) as [p0|e] eqn:Ep0; [|discriminate]. cbn [bind] in H.
  destruct (find_triples ord fuel p0 loops) as [triples|e] eqn:Et; [|discriminate]. cbn [bind] in H.
  match type of H with bind ?m _ = _ => destruct m as [[[net1 next1] tb1]|e] eqn:E1; [|discriminate] end. cbn [bind] in H.
  destruct (nfc_provider (r_create_from ord log false (Some loops)) log) as [p|e] eqn:Ep; [|discriminate]. cbn [bind] in H.
  match type of H with bind ?m _ = _ => destruct m as [w1|e] eqn:E2; [|discriminate] end. cbn [bind] in H.
  match type of H with bind ?m _ = _ => destruct m as [[[net2 next2] tb2]|e] eqn:E3; [|discriminate] end. cbn [bind] in H.
  match type of H with bind ?m _ = _ => destruct m as [w2|e] eqn:E4; [|discriminate] end. cbn [bind] in H.
  match type of H with bind ?m _ = _ => destruct m as [[[net4 next4] tb4]|e] eqn:E5; [|discriminate] end. cbn [bind] in H.
  match type of H with bind ?m _ = _ => destruct m as [xsets|e] eqn:E6; [|discriminate] end. cbn [bind] in H.
  match type of H with bind ?m _ = _ => destruct m as [[[net3 next3] tb3]|e] eqn:E7; [|discriminate] end. cbn [bind] in H.
  match type of H with bind ?m _ = _ => destruct m as [w3|e] eqn:E8; [|discriminate] end. cbn [bind] in H.
  match type of H with bind ?m _ = _ => destruct m as [w3'|e] eqn:E9; [|discriminate] end. cbn [bind] in H.
  match type of H with bind ?m _ = _ => destruct m as [pairs|e] eqn:E10; [|discriminate] end. cbn [bind] in H.
  set (S0 := fun c => exists t, In t log /\ In c t).
  destruct (loops_proof log [] (NoDup_nil _)) as (loops' & El' & NDl & Hl); [intros t Ht Z; apply L in Ht; subst t; cbn in Ht; lia|].
  assert (loops' = loops) by (unfold find_transitions_one_length_loop in El; congruence). subst loops'. cbn [In] in Hl.
  destruct (provider_facts ord O log (Some loops) L) as (p' & Ep' & Fa). assert (p' = p) by congruence. subst p'.
  assert (Sp : forall more k c, In c (r_all_event_classes ord k (np_info (with_more p more))) -> S0 c) by (intros more k c Hc; destruct (Fa more) as (_ & X); apply X in Hc; exact (proj1 Hc)).
  assert (Sl : forall c, In c loops -> S0 c).
  { intros c Hc. apply Hl in Hc. destruct Hc as [[]|(l1 & l2 & Hc)]. exists (l1 ++ c :: c :: l2). split; [exact Hc|]. apply in_app_iff. right. left. reflexivity. }
  destruct (triples_known ord O log p0 loops fuel triples L Ep0 El Et) as (T1 & T2).
  assert (Tn : forall t, In t triples -> named S0 (triple_sets t)).
  { intros t Ht. destruct (T1 t Ht) as (_ & (F1 & F2 & F3 & F)). split; [apply bset_of_sorted|]. split; [apply bset_of_sorted|]. intros c Hc. unfold triple_sets in Hc. cbn [as_left as_right] in Hc. rewrite !bset_of_In, !in_app_iff in Hc.
    destruct (t_a t) as [|a0 A0] eqn:Ea; [congruence|]. destruct (t_b t) as [|b0 B0] eqn:Eb; [congruence|]. destruct (t_c t) as [|c0 C0] eqn:Ec; [congruence|]. rewrite <- Ea, <- Eb, <- Ec in *.
    assert (Ha : In a0 (t_a t)) by (rewrite Ea; left; reflexivity). assert (Hb : In b0 (t_b t)) by (rewrite Eb; left; reflexivity). assert (Hc0 : In c0 (t_c t)) by (rewrite Ec; left; reflexivity).
    assert (Q : forall a b c, loop_between log a b c -> S0 a /\ S0 b /\ S0 c) by (intros a b d (_ & X & _ & Y & _); destruct (follows_seen _ _ _ X) as ((X1 & _) & (X2 & _)); destruct (follows_seen _ _ _ Y) as (_ & (Y2 & _)); auto).
    destruct Hc as [[Hc|Hc]|[Hc|Hc]]; [apply (Q c b0 c0)|apply (Q a0 b0 c)|apply (Q a0 c c0)|apply (Q a0 b0 c)]; auto. }
  assert (Xn : Forall (xnamed S0) xsets).
  { refine (xsets_named ord O _ S0 (Sp (ord 93 _ w1)) fuel arrow w1 _ _ xsets _ E6). intros x Hx. apply (alpha_named ord O (with_more p (ord 93 _ w1)) S0 (Sp (ord 93 _ w1)) fuel next2 net4 next4 tb4 E5).
    apply in_map_iff in Hx. destruct Hx as (kv & <- & Hx). apply in_map, (Permutation_in _ (O 94 _ tb4)), Hx. }
  assert (Pn : Forall (named S0) pairs).
  { eapply (pairs_named ord O _ S0); [|exact E10]. intros k c Hc. match type of Hc with In _ (r_all_event_classes _ _ (np_info ?q)) => assert (Q : np_info q = np_info p) end.
    { unfold add_all. fold (with_more p (ord 93 _ w1)). match goal with |- np_info (fold_left _ ?l ?q) = _ => change (np_info (with_more q l) = np_info p) end. rewrite (proj1 (with_more_proof _ _)), (proj1 (with_more_proof _ _)). reflexivity. }
    rewrite Q in Hc. exact (Sp [] k c Hc). }
  set (all := all_sets ord triples xsets pairs) in H.
  assert (Al : NoDup (map as_key all) /\ (forall x, In x all -> (should_add triples x = true /\ named S0 x) \/ exists t, In t triples /\ x = triple_sets t) /\ forall t, In t triples -> exists x, In x all /\ as_key x = as_key (triple_sets t)).
  { unfold all, all_sets. match goal with |- context [fold_left _ ?l _] => destruct (dedup_proof as_key as_eqb as_eqb_key l [] (NoDup_nil _)) as (A & B & C) end. split; [exact A|]. split.
    - intros x Hx. destruct (B x Hx) as [Hx'|[]]. rewrite !in_app_iff in Hx'. destruct Hx' as [Hx'|[Hx'|Hx']].
      + apply filter_In in Hx'. left. split; [apply Hx'|]. apply (proj1 (Forall_forall _ _) Pn), (Permutation_in _ (O 85 _ pairs)), Hx'.
      + apply filter_In in Hx'. left. split; [apply Hx'|]. destruct Hx' as (Hx' & _). apply in_map_iff in Hx'. destruct Hx' as (y & <- & Hy). apply xset_sets_named, (proj1 (Forall_forall _ _) Xn), (Permutation_in _ (O 86 _ xsets)), Hy.
      + right. apply in_map_iff in Hx'. destruct Hx' as (t & <- & Ht). exists t. split; [apply (Permutation_in _ (O 87 _ triples)), Ht|reflexivity].
    - intros t Ht. apply C. left. rewrite !in_app_iff. right. right. apply in_map, (Permutation_in _ (Permutation_sym (O 87 _ triples))), Ht. }
  destruct Al as (A1 & A2 & A3).
  assert (An : Forall (named S0) all) by (apply Forall_forall; intros x Hx; destruct (A2 x Hx) as [(_ & X)|(t & Ht & ->)]; [exact X|apply Tn, Ht]).
  destruct (counts_proof ord O log false (Some loops)) as (_ & Hc & _). destruct (Hc 88) as (NDc & _). assert (Ci := provider_info _ _ _ Ep).
  destruct (places_net_proof ord (r_create_from ord log false (Some loops)) loops all next3 S0 O NDc NDl) as (n & x & tb & En & Hn).
  { intros c Hcc. rewrite <- Ci in Hcc. destruct (Fa []) as (_ & X). apply X in Hcc. exact (proj2 Hcc). }
  { intros c. rewrite <- Ci. destruct (Fa []) as (_ & X). cbn [with_more fold_left] in X. rewrite X. split; [intros [Y|Y]; [exact (proj1 Y)|apply Sl, Y]|]. intros Y. destruct (in_dec str_eq_dec c loops) as [Z|Z]; [right; exact Z|left; split; assumption]. }
  { exact An. }
  rewrite En in H. cbn [bind] in H. injection H as <- <-. exists (map (fun x => (as_left x, as_right x)) (ord 90 _ all)). split; [exact Hn|].
  assert (Ino : forall A B, In (A, B) (map (fun x => (as_left x, as_right x)) (ord 90 _ all)) <-> In (mkASet A B) all).
  { intros A B. rewrite in_map_iff. split; [intros ([l r] & E & Hx); cbn in E; injection E as <- <-; apply (Permutation_in _ (O 90 _ all)), Hx|]. intros Hx. exists (mkASet A B). split; [reflexivity|]. apply (Permutation_in _ (Permutation_sym (O 90 _ all))), Hx. }
  split; [|split; [|split]].
  - intros A B Hx. apply Ino in Hx. destruct (proj1 (Forall_forall _ _) An _ Hx) as (X & Y & _). auto.
  - rewrite map_map. cbn [fst snd]. apply (Permutation_NoDup (Permutation_map as_key (Permutation_sym (O 90 _ all))) A1).
  - intros A B Hx. apply Ino in Hx. destruct (A2 _ Hx) as [(Sa & Nx)|(t & Ht & E)].
    + right. intros Cl C M. destruct (proj1 (Forall_forall _ _) An _ Hx) as (SA & SB & _). cbn [as_left as_right] in SA, SB.
      assert (Hin : In (mkTriple A B (bset_of C)) triples).
      { apply (T2 Cl). cbn [t_a t_b t_c]. split; [split; [exact SA|split; [exact SB|apply bset_of_sorted]]|]. destruct M as ((M1 & M2 & M3 & M4) & M5). split.
        - split; [exact M1|]. split; [exact M2|]. split; [apply bset_of_nil, M3|]. intros a b c Ha Hb Hcc. rewrite bset_of_In in Hcc. auto.
        - intros A' B' C' F' I1 I2 I3. destruct (M5 A' B' C' F' I1 I2) as (J1 & J2 & J3); [intros z Hz; apply I3, bset_of_In, Hz|]. split; [exact J1|]. split; [exact J2|]. intros z Hz. apply bset_of_In, J3, Hz. }
      unfold should_add in Sa. rewrite negb_true_iff in Sa. assert (X : existsb (fun t => (if list_eq_dec str_eq_dec (t_a t) A then true else false) && (if list_eq_dec str_eq_dec (t_b t) B then true else false)) triples = true).
      { apply existsb_exists. exists (mkTriple A B (bset_of C)). split; [exact Hin|]. cbn [t_a t_b]. destruct (list_eq_dec str_eq_dec A A); [|congruence]. destruct (list_eq_dec str_eq_dec B B); [reflexivity|congruence]. }
      cbn [as_left as_right] in Sa. congruence.
    + left. exists (t_a t), (t_b t), (t_c t). split; [apply (T1 t Ht)|]. unfold triple_sets in E. injection E as -> ->. split; intros z; apply bset_of_In.
  - intros Cl A B C M. assert (Hin : In (mkTriple (bset_of A) (bset_of B) (bset_of C)) triples).
    { apply (T2 Cl). cbn [t_a t_b t_c]. split; [repeat split; apply bset_of_sorted|]. destruct M as ((M1 & M2 & M3 & M4) & M5). split.
      - do 3 (split; [apply bset_of_nil; assumption|]). intros a b c Ha Hb Hcc. rewrite bset_of_In in Ha, Hb, Hcc. auto.
      - intros A' B' C' F' I1 I2 I3. destruct (M5 A' B' C' F') as (J1 & J2 & J3); [intros z Hz; apply I1, bset_of_In, Hz|intros z Hz; apply I2, bset_of_In, Hz|intros z Hz; apply I3, bset_of_In, Hz|].
        repeat split; intros z Hz; apply bset_of_In; auto. }
    destruct (A3 _ Hin) as ([A' B'] & Hx & E). exists A', B', (bset_of (bset_of A ++ bset_of C)), (bset_of (bset_of B ++ bset_of C)). split; [apply Ino, Hx|]. split; [apply bset_of_sorted|]. split; [apply bset_of_sorted|]. split; [|exact E].
    split; intros z; rewrite bset_of_In, !in_app_iff, !bset_of_In; tauto.
Qed.
Print Assumptions C94_net.
(** Such a net cannot be replayed. *)
Theorem C94_no_replay : forall ord, any_order ord -> forall arrow fuel log next net next', discover_nfc ord arrow fuel log next = Ok (net, next') ->
  n_initial net = None /\ n_final net = None /\ forall fuel' log', log' <> [] -> replay_petri_net fuel' log' net = Ok None.
Proof.
  intros ord O arrow fuel log next net next' H. destruct (C94_net ord O arrow fuel log next net next' H) as (sets & N & _). destruct N. split; [assumption|]. split; [assumption|]. intros fuel' log' NE. unfold replay_petri_net. rewrite nn_initial. destruct log'; [congruence|reflexivity].
Qed.
Print Assumptions C94_no_replay.
(** It is not so that a net can be replayed with the log it was found from. *)
Theorem C94_replays_own_log_refuted : exists log net next', long_enough log /\ discover_nfc as_it_is (fun _ _ => false) 20 log 0 = Ok (net, next') /\ forall fuel states, replay_petri_net fuel log net <> Ok (Some states).
Proof.
  destruct (discover_nfc as_it_is (fun _ _ => false) 20 one_log 0) as [[net next']|e] eqn:E; [|vm_compute in E; discriminate]. exists one_log, net, next'. split; [intros t [<-|[]]; cbn; lia|]. split; [exact E|].
  intros fuel states. destruct (C94_no_replay as_it_is as_it_is_any _ _ _ _ _ _ E) as (_ & _ & R). rewrite R by discriminate. discriminate.
Qed.
Print Assumptions C94_replays_own_log_refuted.
Example C94_net_case : clear_texts (loop_between one_log) /\ maximal3 (loop_between one_log) [str "a"] [str "b"] [str "c"] /\
  match discover_nfc as_it_is (fun _ _ => false) 20 one_log 0 with
  | Ok (net, _) => map snd (n_places net) = [str "({a,c}, {b,c})"] /\ map (fun t => (tr_name t, length (tr_in t), length (tr_out t))) (n_trans net) = [(str "a", 0, 1); (str "b", 1, 0); (str "c", 1, 1)]
  | Err _ => False
  end.
Proof.
  split; [apply C92_triples_case|]. split; [|vm_compute; split; reflexivity]. split.
  - do 3 (split; [discriminate|]). intros a b c [<-|[]] [<-|[]] [<-|[]].
    assert (T : forall a b, triangle one_log a b -> False).
    { intros a b (l1 & l2 & H). unfold one_log in H. cbn in H. destruct H as [H|[]]. destruct l1 as [|u1 [|u2 [|u3 [|u4 l1]]]]; cbn in H; inversion H; subst; try discriminate; try congruence; destruct l1; discriminate. }
    split; [exists [str "a"], [str "b"]; left; reflexivity|]. split; [vm_compute; tauto|]. split; [intros H; exact (T _ _ H)|]. split; [vm_compute; tauto|]. split; [intros H; exact (T _ _ H)|].
    split; [intros (H & _); vm_compute in H; intuition discriminate|]. split; split; intros H; vm_compute in H; intuition discriminate.
  - intros A B C (_ & _ & _ & F) I1 I2 I3. split; [|split]; intros x Hx; left; symmetry; [apply (one_log_between x (str "b") (str "c"))|apply (one_log_between (str "a") x (str "c"))|apply (one_log_between (str "a") (str "b") x)]; apply F; auto; try (apply I1; left; reflexivity); try (apply I2; left; reflexivity); apply I3; left; reflexivity.
Qed.
Example C94_panics_case : discover_nfc as_it_is (fun _ _ => false) 20 [[str "a"; str "b"]; [str "a"]] 0 = rpanic /\ discover_nfc as_it_is (fun _ _ => false) 20 [[str "a"; str "a"; str "b"]] 0 = rpanic.
Proof. split; vm_compute; reflexivity. Qed.
