(** The steps of the alpha++ NFC algorithm (C94). *)
From Verif Require Import Py PyFacts InfoModel InfoSpec InfoProofs HashModel ReplayModel RInfoModel RInfoSpec RInfoProofs AlphaModel AlphaSpec AlphaProofs AlphaProofs5 AlphaProofs6 AlphaProps PlusSpec PlusProofs NfcModel NfcSpec NfcProofs NfcProofs2 NfcProps NfcNetModel NfcNetSpec NfcNetProps NfcRelSpec NfcRelProofs NfcRelProps NfcPlaceSpec NfcPlaceProofs NfcPlaceProps.

Lemma related_proof ord p holds l : related_pairs ord p holds = Ok l ->
  forall a b, In (a, b) l <-> In a (r_all_event_classes ord 91 (np_info p)) /\ In b (r_all_event_classes ord 92 (np_info p)) /\ holds a b = Ok true.
Proof.
  unfold related_pairs. intros H a b. rewrite <- and_assoc, <- in_prod_iff. revert l H. generalize (list_prod (r_all_event_classes ord 91 (np_info p)) (r_all_event_classes ord 92 (np_info p))). intros ps.
  induction ps as [|[x y] ps IH]; intros l H; cbn [mapM bind] in H; [injection H as <-; cbn; tauto|]. cbn [fst snd] in H.
  destruct (holds x y) as [v|e] eqn:E; [|discriminate]. cbn [bind] in H.
  match type of H with bind (bind ?m _) _ = _ => destruct m as [ls|e] eqn:Em; [|discriminate] end. cbn [bind] in H. injection H as <-. cbn [concat In]. rewrite in_app_iff. specialize (IH (concat ls)). cbn [bind] in IH. rewrite (IH eq_refl).
  destruct v; cbn [In]; split.
  - intros [[Z|[]]|Z]; [injection Z as <- <-; auto|tauto].
  - intros [[Z|Z] Q]; [injection Z as <- <-; auto|auto].
  - intros [[]|Z]. tauto.
  - intros [[Z|Z] Q]; [injection Z as <- <-; congruence|auto].
Qed.
(** A run which gives a net: from the net of alpha+ the first implied relations are found, which hold in all that follows; from its net
    with them the second, without those known by steps; then the third.  The places come from the triples, from the sets of alpha extended by
    the first and second relations and from the third ones without those known from others. *)
Theorem C94_steps : forall ord, any_order ord -> forall arrow fuel log next net next', discover_nfc ord arrow fuel log next = Ok (net, next') ->
  exists loops p0 p triples n1 k1 t1 w1 n2 k2 t2 w2 n4 k4 t4 xsets n3 k3 t3 w3 w3' pairs t5,
  let after := fun a b => arrow a b = true in let ign := Some loops in let more1 := ord 93 _ w1 in let more2 := more1 ++ ord 95 _ w2 in
  find_transitions_one_length_loop log = Ok loops /\ nfc_provider (r_create_from ord log false None) log = Ok p0 /\ nfc_provider (r_create_from ord log false ign) log = Ok p /\
  find_triples ord fuel p0 loops = Ok triples /\
  discover_petri_net_alpha_plus ord fuel log (nfc_aprovider p0) loops false next = Ok (n1, k1, t1) /\
  (NoDup (map tr_name (n_trans n1)) -> forall a b, In (a, b) w1 <-> seen log ign a /\ seen log ign b /\ implied1 log ign [] after n1 a b) /\
  discover_petri_net_alpha_plus ord fuel log (nfc_aprovider (with_more p more1)) loops false k1 = Ok (n2, k2, t2) /\
  (NoDup (map tr_name (n_trans n2)) -> forall a b, In (a, b) w2 <-> seen log ign a /\ seen log ign b /\ implied2 log ign more1 after n2 a b /\ ~ by_steps log ign more1 after n2 a b) /\
  discover_petri_net_alpha ord fuel (nfc_aprovider (with_more p more1)) k2 = Ok (n4, k4, t4) /\
  find_xsets ord fuel (with_more p more1) arrow w1 w2 (map snd (ord 94 _ t4)) = Ok xsets /\
  discover_petri_net_alpha_plus ord fuel log (nfc_aprovider (with_more p more2)) loops false k4 = Ok (n3, k3, t3) /\
  (NoDup (map tr_name (n_trans n3)) -> (forall c, seen log ign c -> In c (map tr_name (n_trans n3))) ->
     forall a b, In (a, b) w3 <-> seen log ign a /\ seen log ign b /\ implied3 log ign more2 after n3 a b) /\
  reduce_w3 ord fuel w3 = Ok w3' /\ find_pairs ord fuel (with_more p more2) w3' = Ok pairs /\
  places_net ord (r_create_from ord log false ign) loops (all_sets ord triples xsets pairs) k3 = Ok (net, next', t5).
Proof.
  intros ord O arrow fuel log next net next' H. destruct (long_or_short log) as [L|(t & Ht & Lt)]; [|rewrite (C94_short_trace_panics ord arrow fuel log next t Ht Lt) in H; discriminate].
  unfold discover_nfc in H. destruct (find_transitions_one_length_loop log) as [loops|e] eqn:El; [|discriminate]. cbn [bind] in H.
  destruct (nfc_provider (r_create_from ord log false None) log) as [p0|e] eqn:Ep0; [|discriminate]. cbn [bind] in H.
  destruct (find_triples ord fuel p0 loops) as [triples|e] eqn:Et; [|discriminate]. cbn [bind] in H.
  match type of H with bind ?m _ = _ => destruct m as [[[n1 k1] t1]|e] eqn:E1; [|discriminate] end. cbn [bind] in H.
  destruct (nfc_provider (r_create_from ord log false (Some loops)) log) as [p|e] eqn:Ep; [|discriminate]. cbn [bind] in H.
  match type of H with bind ?m _ = _ => destruct m as [w1|e] eqn:E2; [|discriminate] end. cbn [bind] in H.
  match type of H with bind ?m _ = _ => destruct m as [[[n2 k2] t2]|e] eqn:E3; [|discriminate] end. cbn [bind] in H.
  match type of H with bind ?m _ = _ => destruct m as [w2|e] eqn:E4; [|discriminate] end. cbn [bind] in H.
  match type of H with bind ?m _ = _ => destruct m as [[[n4 k4] t4]|e] eqn:E5; [|discriminate] end. cbn [bind] in H.
  match type of H with bind ?m _ = _ => destruct m as [xsets|e] eqn:E6; [|discriminate] end. cbn [bind] in H.
  match type of H with bind ?m _ = _ => destruct m as [[[n3 k3] t3]|e] eqn:E7; [|discriminate] end. cbn [bind] in H.
  match type of H with bind ?m _ = _ => destruct m as [w3|e] eqn:E8; [|discriminate] end. cbn [bind] in H.
  match type of H with bind ?m _ = _ => destruct m as [w3'|e] eqn:E9; [|discriminate] end. cbn [bind] in H.
  match type of H with bind ?m _ = _ => destruct m as [pairs|e] eqn:E10; [|discriminate] end. cbn [bind] in H.
  match type of H with bind ?m _ = _ => destruct m as [[[nn kk] t5]|e] eqn:E11; [|discriminate] end. cbn [bind] in H. inversion H; subst nn kk. clear H.
  destruct (C93_w1_w2 ord O log (Some loops) L) as (p' & Ep' & W). assert (p' = p) by congruence. subst p'.
  destruct (C93_w3 ord O log (Some loops) L) as (p' & Ep'' & W3). assert (p' = p) by congruence. subst p'.
  destruct (provider_facts ord O log (Some loops) L) as (p' & Ep3 & Fa). assert (p' = p) by congruence. subst p'.
  assert (Sn : forall more k c, In c (r_all_event_classes ord k (np_info (with_more p more))) <-> seen log (Some loops) c) by (intros more k c; apply (Fa more)).
  unfold add_all in *. fold (with_more p (ord 93 _ w1)) in *. set (more1 := ord 93 _ w1) in *. set (w2' := eliminate_rule_1 ord arrow (with_more p more1) n2 w2) in *.
  assert (M2 : fold_left (fun p r => add_causal p (fst r) (snd r)) (ord 95 _ w2') (with_more p more1) = with_more p (more1 ++ ord 95 _ w2')) by (unfold with_more; rewrite fold_left_app; reflexivity). rewrite M2 in *.
  exists loops, p0, p, triples, n1, k1, t1, w1, n2, k2, t2, w2', n4, k4, t4, xsets, n3, k3, t3, w3, w3', pairs, t5. cbn zeta.
  split; [reflexivity|]. split; [reflexivity|]. split; [exact Ep|]. split; [exact Et|]. split; [exact E1|]. split; [|split; [exact E3|split; [|split; [exact E5|split; [exact E6|split; [exact E7|split; [|split; [exact E9|split; [exact E10|exact E11]]]]]]]]].
  - intros N a b. rewrite (related_proof _ _ _ _ E2). rewrite (Sn [] 91), (Sn [] 92). destruct (W [] arrow n1 N) as (W1 & _). specialize (W1 a b). change (with_more p []) with p in W1. rewrite <- W1. split; intros (A & B & C); (split; [exact A|split; [exact B|]]); [injection C as C; exact C|f_equal; exact C].
  - intros N a b. destruct (W more1 arrow n2 N) as (_ & _ & _ & W2 & W4). unfold w2'. rewrite W4, (related_proof _ _ _ _ E4), (Sn more1 91), (Sn more1 92). specialize (W2 a b). fold more1. split.
    + intros ((A & B & C) & D). injection C as C. apply W2 in C. auto.
    + intros (A & B & C & D). apply W2 in C. rewrite C. auto.
  - intros N Al a b. rewrite (related_proof _ _ _ _ E8), (Sn _ 91), (Sn _ 92). split.
    + intros (A & B & C). repeat (split; [assumption|]). destruct (W3 (more1 ++ ord 95 _ w2') arrow n3 N Al a b A B) as (v & Ev & Iv). apply Iv. congruence.
    + intros (A & B & C). repeat (split; [assumption|]). destruct (W3 (more1 ++ ord 95 _ w2') arrow n3 N Al a b A B) as (v & Ev & Iv). apply Iv in C. congruence.
Qed.
Print Assumptions C94_steps.
(** C94_steps: a run with one first implied relation, in whose first net no two transitions have the same name; and one with a loop,
    which has two transitions in the first net. *)
Definition step_log : list (list pystr) := [[str "e"; str "f"; str "d"; str "e"; str "b"]; [str "d"; str "f"; str "e"; str "b"]].
Example C94_steps_case : match discover_nfc as_it_is (fun _ _ => true) 12 step_log 0, nfc_provider (r_create_from as_it_is step_log false None) step_log with
  | Ok (net, _), Ok p0 => length (n_places net) = 3 /\ match discover_petri_net_alpha_plus as_it_is 12 step_log (nfc_aprovider p0) [] false 0 with
    | Ok (n1, _, _) => map tr_name (n_trans n1) = map str ["e"; "f"; "d"; "b"]%string /\ match related_pairs as_it_is p0 (fun a b => Ok (w1_relation as_it_is (fun _ _ => true) p0 n1 a b)) with Ok l => length l = 1 | Err _ => False end
    | Err _ => False end
  | _, _ => False
  end.
Proof. vm_compute. repeat split. Qed.
Example C94_steps_loop_case : match discover_nfc as_it_is (fun _ _ => false) 20 one_log 0, find_transitions_one_length_loop one_log, nfc_provider (r_create_from as_it_is one_log false None) one_log with
  | Ok _, Ok loops, Ok p0 => match discover_petri_net_alpha_plus as_it_is 20 one_log (nfc_aprovider p0) loops false 0 with Ok (n1, _, _) => map tr_name (n_trans n1) = map str ["a"; "c"; "b"; "c"]%string | _ => False end
  | _, _, _ => False
  end.
Proof. vm_compute. reflexivity. Qed.
