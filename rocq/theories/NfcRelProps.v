(** The implied relations of the alpha++ NFC algorithm (C93). *)
From Verif Require Import Py PyFacts InfoModel InfoSpec InfoProofs HashModel ReplayModel RInfoModel RInfoSpec RInfoProofs AlphaModel AlphaSpec AlphaProofs AlphaProofs5 AlphaProofs6 AlphaProps PlusSpec PlusProofs NfcModel NfcSpec NfcProofs NfcProofs2 NfcProps NfcNetModel NfcNetProps NfcRelSpec NfcRelProofs.

(** For every log without traces of less than two events, every net in which no two transitions have the same name, relations
    added by hand and any answers of the relation "some time after", w1, w2 and its elimination say what they are meant to. *)
Theorem C93_w1_w2 : forall ord, any_order ord -> forall log ign, long_enough log ->
  exists p0, nfc_provider (r_create_from ord log false ign) log = Ok p0 /\ forall more arrow net, NoDup (map tr_name (n_trans net)) ->
  let p := with_more p0 more in let after := fun a b => arrow a b = true in
  (forall a b, w1_relation ord arrow p net a b = true <-> implied1 log ign more after net a b) /\
  (forall a b, w21_relation ord arrow p net a b = true <-> implied21 log ign more after net a b) /\
  (forall a b, w22_relation ord arrow p net a b = true <-> implied22 log ign more after net a b) /\
  (forall a b, w2_relation ord arrow p net a b = true <-> implied2 log ign more after net a b) /\
  (forall w2 a c, In (a, c) (eliminate_rule_1 ord arrow p net w2) <-> In (a, c) w2 /\ ~ by_steps log ign more after net a c).
Proof.
  intros ord O log ign L. destruct (C85_relations ord O log ign L) as (p0 & E & R). destruct (provider_facts ord O log ign L) as (p' & E' & Fa). assert (p' = p0) by congruence. subst p'.
  exists p0. split; [exact E|]. intros more arrow net N. cbn zeta. destruct (R more) as (R1 & _ & R3 & R4 & _ & R6 & R7 & _). destruct (Fa more) as (_ & Cl). split; [|split; [|split; [|split]]]; intros *.
  - exact (w1_proof ord log ign more arrow net _ N R1 R3 R4 Cl a b).
  - exact (w21_proof ord log ign more arrow net _ N R3 R4 R6 Cl a b).
  - exact (w22_proof ord log ign more arrow net _ N R3 R4 R7 Cl a b).
  - exact (w2_proof ord log ign more arrow net _ N R3 R4 R6 R7 Cl a b).
  - exact (rule_1_proof ord log ign more arrow net _ N R3 R4 R6 R7 Cl w2 a c).
Qed.
Print Assumptions C93_w1_w2.
(** If there is a transition for every name seen, w3 does not panic and says what it is meant to. *)
Theorem C93_w3 : forall ord, any_order ord -> forall log ign, long_enough log ->
  exists p0, nfc_provider (r_create_from ord log false ign) log = Ok p0 /\ forall more arrow net, NoDup (map tr_name (n_trans net)) ->
  (forall c, seen log ign c -> In c (map tr_name (n_trans net))) ->
  forall a b, seen log ign a -> seen log ign b -> exists v, w3_relation ord arrow (with_more p0 more) net a b = Ok v /\
    (v = true <-> implied3 log ign more (fun a b => arrow a b = true) net a b).
Proof.
  intros ord O log ign L. destruct (C85_relations ord O log ign L) as (p0 & E & R). destruct (provider_facts ord O log ign L) as (p' & E' & Fa). assert (p' = p0) by congruence. subst p'.
  exists p0. split; [exact E|]. intros more arrow net N Al. destruct (R more) as (R1 & _ & R3 & R4 & _ & R6 & R7 & _). destruct (Fa more) as (_ & Cl).
  intros a b. refine (w3_proof ord log ign more arrow net _ N R3 R4 Cl _ a b). intros c Hc F. apply Al in Hc. apply in_map_iff in Hc. destruct Hc as (t & Et & Ht). exact (found_none net N c F t Ht Et).
Qed.
Print Assumptions C93_w3.
(** It panics if the first or the second of two names, one of which comes after the other, has no transition. *)
Theorem C93_w3_missing_panics : forall ord arrow p net a b, arrow a b = true ->
  ~ In a (map tr_name (n_trans net)) \/ ~ In b (map tr_name (n_trans net)) -> w3_relation ord arrow p net a b = rpanic.
Proof.
  intros ord arrow p net a b A H.
  assert (M : forall c, ~ In c (map tr_name (n_trans net)) -> find_transition_by_name net c = None).
  { intros c Hc. unfold find_transition_by_name. match goal with |- find ?f ?l = _ => destruct (find f l) as [t|] eqn:F end; [|reflexivity]. exfalso. apply find_some in F. destruct F as (Ht & Et). apply str_eqb_eq in Et. apply Hc, in_map_iff. exists t. auto. }
  unfold w3_relation, post_set, pre_set. rewrite A. destruct H as [H|H]; apply M in H.
  - rewrite H. reflexivity.
  - rewrite H. destruct (find_transition_by_name net a); reflexivity.
Qed.
Print Assumptions C93_w3_missing_panics.

(** A net from names with the places they take from and put into. *)
Definition net_of (l : list (pystr * (list N * list N))) : pnet :=
  mkNet [] (map (fun kv => mkTrans 0 (fst kv) false (map (mkArc 0) (fst (snd kv))) (map (mkArc 0) (snd (snd kv)))) l) None None.
Definition prov_of (log : list (list pystr)) : nprov := match nfc_provider (r_create_from as_it_is log false None) log with Ok p => p | Err _ => mkNProv [] (r_create_from as_it_is [] false None) [] [] end.
(** The answers of "some time after" which say yes for some pairs. *)
Definition only (pairs : list (pystr * pystr)) (a b : pystr) : bool := if in_dec pair_eq_dec (a, b) pairs then true else false.
Definition w1_net : pnet := net_of [(str "a", ([], [1%N])); (str "c", ([1%N; 2%N], [])); (str "b", ([2%N], [])); (str "d", ([], [2%N]))].
Definition w1_log : list (list pystr) := [[str "a"; str "c"]; [str "d"; str "b"]].
Example C93_w1_case : long_enough w1_log /\ NoDup (map tr_name (n_trans w1_net)) /\
  w1_relation as_it_is (only []) (prov_of w1_log) w1_net (str "a") (str "b") = true /\ w1_relation as_it_is (only []) (prov_of w1_log) w1_net (str "d") (str "b") = false /\
  w1_relation as_it_is (only [(str "d", str "a")]) (prov_of w1_log) w1_net (str "a") (str "b") = false.
Proof. split; [intros t [<-|[<-|[]]]; cbn; lia|]. split; [repeat constructor; cbn; intuition discriminate|]. vm_compute. auto. Qed.
Definition w21_net : pnet := net_of [(str "a", ([], [1%N; 2%N])); (str "d", ([1%N], []))].
Definition w21_log : list (list pystr) := [[str "x"; str "b"]; [str "x"; str "c"]; [str "d"; str "c"]].
Definition w22_net : pnet := net_of [(str "b", ([1%N; 2%N], [])); (str "d", ([], [1%N]))].
Definition w22_log : list (list pystr) := [[str "a"; str "x"]; [str "c"; str "x"]; [str "c"; str "d"]].
Example C93_w2_case : long_enough w21_log /\ NoDup (map tr_name (n_trans w21_net)) /\
  w21_relation as_it_is (only [(str "a", str "b")]) (prov_of w21_log) w21_net (str "a") (str "b") = true /\
  w21_relation as_it_is (only [(str "a", str "b"); (str "d", str "b")]) (prov_of w21_log) w21_net (str "a") (str "b") = false /\
  w22_relation as_it_is (only [(str "a", str "b")]) (prov_of w22_log) w22_net (str "a") (str "b") = true /\
  w22_relation as_it_is (only [(str "a", str "b"); (str "a", str "d")]) (prov_of w22_log) w22_net (str "a") (str "b") = false /\
  eliminate_rule_1 as_it_is (only [(str "a", str "b"); (str "b", str "c")]) (prov_of w21_log) w21_net [(str "a", str "b"); (str "a", str "c")] = [(str "a", str "b")].
Proof. split; [intros t [<-|[<-|[<-|[]]]]; cbn; lia|]. split; [repeat constructor; cbn; intuition discriminate|]. vm_compute. auto 6. Qed.
Definition w3_net : pnet := net_of [(str "a", ([], [1%N])); (str "a'", ([], [1%N])); (str "n", ([1%N], [2%N])); (str "b", ([2%N; 3%N], [])); (str "b'", ([2%N], [])); (str "t", ([2%N; 3%N], []))].
Definition w3_log : list (list pystr) := [[str "a"; str "n"; str "b"]; [str "a'"; str "n"; str "b'"; str "t"]].
Example C93_w3_case : long_enough w3_log /\ NoDup (map tr_name (n_trans w3_net)) /\
  w3_relation as_it_is (only [(str "a", str "b"); (str "a'", str "b'"); (str "a'", str "t")]) (prov_of w3_log) w3_net (str "a") (str "b") = Ok true /\
  w3_relation as_it_is (only [(str "a", str "b"); (str "a'", str "b'")]) (prov_of w3_log) w3_net (str "a") (str "b") = Ok false /\
  w3_relation as_it_is (only [(str "a", str "b")]) (prov_of w3_log) (net_of []) (str "a") (str "b") = rpanic.
Proof. split; [intros t [<-|[<-|[]]]; cbn; lia|]. split; [repeat constructor; cbn; intuition discriminate|]. vm_compute. auto. Qed.
(** It is not so that elimination leaves one of the pairs which follow from each other: of two pairs of w2 which follow from each other none is left. *)
Definition gone_log : list (list pystr) := [[str "x"; str "b"]; [str "x"; str "c"]; [str "x"; str "e"]; [str "d"; str "e"]].
Definition gone_arrow : list (pystr * pystr) := [(str "a", str "b"); (str "a", str "c"); (str "b", str "c"); (str "c", str "b")].
Theorem C93_elimination_refuted : exists log arrow p net w2, long_enough log /\ nfc_provider (r_create_from as_it_is log false None) log = Ok p /\ NoDup (map tr_name (n_trans net)) /\
  w2 <> [] /\ (forall a b, In (a, b) w2 -> w2_relation as_it_is arrow p net a b = true) /\ eliminate_rule_1 as_it_is arrow p net w2 = [].
Proof.
  exists gone_log, (only gone_arrow), (prov_of gone_log), w21_net, [(str "a", str "b"); (str "a", str "c")]. split; [intros t [<-|[<-|[<-|[<-|[]]]]]; cbn; lia|]. split; [vm_compute; reflexivity|].
  split; [repeat constructor; cbn; intuition discriminate|]. split; [discriminate|]. split; [intros a b [H|[H|[]]]; injection H as <- <-; vm_compute; reflexivity|vm_compute; reflexivity].
Qed.
Print Assumptions C93_elimination_refuted.
