(** Proofs about the implied relations of the alpha++ NFC algorithm. *)
From Verif Require Import Py PyFacts InfoModel InfoSpec InfoProofs ReplayModel RInfoModel RInfoSpec RInfoProofs AlphaModel AlphaSpec AlphaProofs PlusSpec NfcModel NfcSpec NfcNetModel NfcRelSpec.

Section Rel.
  Variable ord : nat -> forall A : Type, list A -> list A.
  Variable log : list (list pystr).
  Variable ign : option (list pystr).
  Variable more : list (pystr * pystr).
  Variable arr : pystr -> pystr -> bool.
  Variable net : pnet.
  Variable p : nprov.
  Notation arrow := (fun a b => arr a b = true).
  Hypothesis names : NoDup (map tr_name (n_trans net)).
  Hypothesis R1 : forall a b, nfc_direct p a b = true <-> follows log ign a b.
  Hypothesis R3 : forall a b, nfc_causal p a b = true <-> nfc_before log ign more a b.
  Hypothesis R4 : forall a b, nfc_parallel p a b = true <-> nfc_beside log ign a b.
  Hypothesis R6 : forall a b, left_triangle ord p a b = true <-> forked log ign more a b.
  Hypothesis R7 : forall a b, right_triangle ord p a b = true <-> joined log ign more a b.
  Hypothesis Cl : forall k c, In c (r_all_event_classes ord k (np_info p)) <-> seen log ign c.

  Lemma names_inj t t' : In t (n_trans net) -> In t' (n_trans net) -> tr_name t = tr_name t' -> t = t'.
  Proof.
    intros H H' E. apply In_nth_error in H. apply In_nth_error in H'. destruct H as (i & Hi), H' as (j & Hj).
    assert (X : i = j). { apply (proj1 (NoDup_nth_error _) names); [rewrite map_length; apply nth_error_Some; congruence|]. rewrite !nth_error_map, Hi, Hj. cbn. congruence. }
    congruence.
  Qed.
  Lemma found_In c t : find_transition_by_name net c = Some t <-> In t (n_trans net) /\ tr_name t = c.
  Proof.
    unfold find_transition_by_name. split.
    - intros H. apply find_some in H. destruct H as (H & E). apply str_eqb_eq in E. auto.
    - intros (H & E). match goal with |- find ?f ?l = _ => destruct (find f l) as [u|] eqn:F end.
      + apply find_some in F. destruct F as (F & E'). apply str_eqb_eq in E'. f_equal. apply names_inj; congruence.
      + exfalso. assert (X := find_none _ _ F t H). cbn in X. rewrite E, str_eqb_refl in X. discriminate.
  Qed.
  Lemma found_none c : find_transition_by_name net c = None -> forall t, In t (n_trans net) -> tr_name t <> c.
  Proof. intros H t Ht E. rewrite (proj2 (found_In c t) (conj Ht E)) in H. discriminate. Qed.
  Lemma drains_found c t place : find_transition_by_name net c = Some t -> (In place (arc_places (tr_in t)) <-> drains net place c).
  Proof.
    intros F. apply found_In in F. destruct F as (Ht & E). unfold arc_places. split; [intros H; exists t; auto|]. intros (u & Hu & Eu & H). rewrite (names_inj t u); auto. congruence.
  Qed.
  Lemma feeds_found c t place : find_transition_by_name net c = Some t -> (In place (arc_places (tr_out t)) <-> feeds net place c).
  Proof.
    intros F. apply found_In in F. destruct F as (Ht & E). unfold arc_places. split; [intros H; exists t; auto|]. intros (u & Hu & Eu & H). rewrite (names_inj t u); auto. congruence.
  Qed.
  Lemma no_drains c place : find_transition_by_name net c = None -> ~ drains net place c.
  Proof. intros F (t & Ht & E & _). exact (found_none c F t Ht E). Qed.
  Lemma no_feeds c place : find_transition_by_name net c = None -> ~ feeds net place c.
  Proof. intros F (t & Ht & E & _). exact (found_none c F t Ht E). Qed.
  Lemma arcs_exist l place : existsb (fun a => N.eqb (arc_place a) place) l = true <-> In place (map arc_place l).
  Proof. rewrite existsb_exists, in_map_iff. split; intros (a & A & B); exists a; [apply N.eqb_eq in B|split; [exact B|apply N.eqb_eq; exact A]]; auto. Qed.
  Lemma pre_In place c : In c (pre_names net place) <-> feeds net place c.
  Proof.
    unfold pre_names, feeds. rewrite in_map_iff. split; intros (t & A & B); exists t.
    - apply filter_In in B. rewrite arcs_exist in B. tauto.
    - rewrite filter_In, arcs_exist. tauto.
  Qed.
  Lemma post_In place c : In c (post_names net place) <-> drains net place c.
  Proof.
    unfold post_names, drains. rewrite in_map_iff. split; intros (t & A & B); exists t.
    - apply filter_In in B. rewrite arcs_exist in B. tauto.
    - rewrite filter_In, arcs_exist. tauto.
  Qed.
  Lemma linked_proof a b : linked arr p a b = true <-> tied log ign more arrow a b.
  Proof. unfold linked, tied, ahead. rewrite !orb_true_iff, R3, R4. tauto. Qed.
  Lemma ahead_proof a b : nfc_causal p a b || arr a b = true <-> ahead log ign more arrow a b.
  Proof. unfold ahead. rewrite orb_true_iff, R3. tauto. Qed.
  Lemma false_not (b : bool) (P : Prop) : (b = true <-> P) -> (b = false <-> ~ P).
  Proof. destruct b; intuition congruence. Qed.
  Lemma neg_not (b : bool) (P : Prop) : (b = true <-> P) -> (negb b = true <-> ~ P).
  Proof. destruct b; cbn; intuition congruence. Qed.
  Lemma neq_proof x y : negb (N.eqb x y) = true <-> x <> y.
  Proof. apply neg_not, N.eqb_eq. Qed.

  Lemma w1_proof a b : w1_relation ord arr p net a b = true <-> implied1 log ign more arrow net a b.
  Proof.
    unfold w1_relation, implied1. destruct (nfc_direct p a b) eqn:D; [apply R1 in D; split; [discriminate|tauto]|]. apply (false_not _ _ (R1 a b)) in D. rewrite existsb_exists. split.
    - intros (c & Hc & H). split; [exact D|]. apply Cl in Hc. destruct (find_transition_by_name net c) as [t|] eqn:F; [|discriminate].
      apply existsb_exists in H. destruct H as (p1 & H1 & H). apply existsb_exists in H. destruct H as (p2 & H2 & H). rewrite !andb_true_iff, neq_proof, !str_mem_spec, pre_In, post_In in H.
      apply (drains_found c t _ F) in H1. apply (drains_found c t _ F) in H2. destruct H as ((((N12 & Ha) & Na) & Hb) & Hn). exists c, p1, p2. repeat (split; [assumption|]). split; [|split; [exact Hb|]].
      + rewrite <- pre_In. apply (proj1 (neg_not _ _ (str_mem_spec a (pre_names net p2)))), Na.
      + intros d Hd. rewrite forallb_forall in Hn. apply (proj1 (neg_not _ _ (linked_proof d a))), Hn, pre_In, Hd.
    - intros (_ & c & p1 & p2 & Sc & N12 & D1 & D2 & Fa & Na & Db & Hn). exists c. split; [apply Cl, Sc|]. destruct (find_transition_by_name net c) as [t|] eqn:F; [|exfalso; exact (no_drains c p1 F D1)].
      apply existsb_exists. exists p1. split; [apply (drains_found c t _ F), D1|]. apply existsb_exists. exists p2. split; [apply (drains_found c t _ F), D2|].
      rewrite !andb_true_iff, neq_proof, !str_mem_spec, pre_In, post_In. split; [split; [split; [split|]|]|]; auto.
      + apply (proj2 (neg_not _ _ (str_mem_spec a (pre_names net p2)))). rewrite pre_In. exact Na.
      + apply forallb_forall. intros d Hd. apply (proj2 (neg_not _ _ (linked_proof d a))), Hn, pre_In, Hd.
  Qed.
  Lemma w21_proof a b : w21_relation ord arr p net a b = true <-> implied21 log ign more arrow net a b.
  Proof.
    unfold w21_relation, implied21. destruct (arr a b) eqn:A; [|split; [discriminate|intros [X _]; congruence]]. destruct (find_transition_by_name net a) as [t|] eqn:F.
    - assert (M : many_out net a <-> 2 <= length (tr_out t)).
      { apply found_In in F. destruct F as (Ht & E). split; [|intros H; exists t; auto]. intros (u & Hu & Eu & H). rewrite (names_inj t u); auto. congruence. }
      destruct (length (tr_out t) <=? 1) eqn:Le; [apply Nat.leb_le in Le; split; [discriminate|]; intros (_ & H & _); apply M in H; lia|]. apply Nat.leb_gt in Le. rewrite existsb_exists. split.
      + intros (c & Hc & H). apply Cl in Hc. apply andb_true_iff in H. destruct H as (Hf & H). apply R6 in Hf. apply existsb_exists in H. destruct H as (place & Hp & H). apply andb_true_iff in H. destruct H as (H1 & H2).
        split; [reflexivity|]. split; [apply M; lia|]. exists c, place. split; [exact Hc|]. split; [exact Hf|]. split; [apply (feeds_found a t place F), Hp|]. split.
        * intros d Hd T. rewrite negb_true_iff in H1. assert (X : existsb (fun n => linked arr p n b) (post_names net place) = true) by (apply existsb_exists; exists d; split; [apply post_In, Hd|apply linked_proof, T]). congruence.
        * apply existsb_exists in H2. destruct H2 as (d & Hd & T). exists d. split; [apply post_In, Hd|apply linked_proof, T].
      + intros (_ & _ & c & place & Sc & Fo & Fe & N1 & d & Dd & T). exists c. split; [apply Cl, Sc|]. apply andb_true_iff. split; [apply R6, Fo|]. apply existsb_exists. exists place. split; [apply (feeds_found a t place F), Fe|].
        apply andb_true_iff. split; [|apply existsb_exists; exists d; split; [apply post_In, Dd|apply linked_proof, T]]. apply negb_true_iff. destruct (existsb (fun n => linked arr p n b) (post_names net place)) eqn:X; [|reflexivity].
        apply existsb_exists in X. destruct X as (u & Hu & Tu). exfalso. apply (N1 u); [apply post_In, Hu|apply linked_proof, Tu].
    - split; [discriminate|]. intros (_ & (u & Hu & Eu & _) & _). exfalso. exact (found_none a F u Hu Eu).
  Qed.
  Lemma w22_proof a b : w22_relation ord arr p net a b = true <-> implied22 log ign more arrow net a b.
  Proof.
    unfold w22_relation, implied22. destruct (arr a b) eqn:A; [|split; [discriminate|intros [X _]; congruence]]. destruct (find_transition_by_name net b) as [t|] eqn:F.
    - assert (M : many_in net b <-> 2 <= length (tr_in t)).
      { apply found_In in F. destruct F as (Ht & E). split; [|intros H; exists t; auto]. intros (u & Hu & Eu & H). rewrite (names_inj t u); auto. congruence. }
      destruct (length (tr_in t) <=? 1) eqn:Le; [apply Nat.leb_le in Le; split; [discriminate|]; intros (_ & H & _); apply M in H; lia|]. apply Nat.leb_gt in Le. rewrite existsb_exists. split.
      + intros (c & Hc & H). apply Cl in Hc. apply andb_true_iff in H. destruct H as (Hf & H). apply R7 in Hf. apply existsb_exists in H. destruct H as (place & Hp & H). apply andb_true_iff in H. destruct H as (H1 & H2).
        split; [reflexivity|]. split; [apply M; lia|]. exists c, place. split; [exact Hc|]. split; [exact Hf|]. split; [apply (drains_found b t place F), Hp|]. split.
        * intros d Hd T. rewrite negb_true_iff in H1. assert (X : existsb (fun n => linked arr p a n) (pre_names net place) = true) by (apply existsb_exists; exists d; split; [apply pre_In, Hd|apply linked_proof, T]). congruence.
        * apply existsb_exists in H2. destruct H2 as (d & Hd & T). exists d. split; [apply pre_In, Hd|apply linked_proof, T].
      + intros (_ & _ & c & place & Sc & Fo & Fe & N1 & d & Dd & T). exists c. split; [apply Cl, Sc|]. apply andb_true_iff. split; [apply R7, Fo|]. apply existsb_exists. exists place. split; [apply (drains_found b t place F), Fe|].
        apply andb_true_iff. split; [|apply existsb_exists; exists d; split; [apply pre_In, Dd|apply linked_proof, T]]. apply negb_true_iff. destruct (existsb (fun n => linked arr p a n) (pre_names net place)) eqn:X; [|reflexivity].
        apply existsb_exists in X. destruct X as (u & Hu & Tu). exfalso. apply (N1 u); [apply pre_In, Hu|apply linked_proof, Tu].
    - split; [discriminate|]. intros (_ & (u & Hu & Eu & _) & _). exfalso. exact (found_none b F u Hu Eu).
  Qed.
  Lemma w2_proof a b : w2_relation ord arr p net a b = true <-> implied2 log ign more arrow net a b.
  Proof. unfold w2_relation, implied2. rewrite orb_true_iff, w21_proof, w22_proof. tauto. Qed.
  Lemma rule_1_proof w2 a c : In (a, c) (eliminate_rule_1 ord arr p net w2) <-> In (a, c) w2 /\ ~ by_steps log ign more arrow net a c.
  Proof.
    unfold eliminate_rule_1. rewrite filter_In. apply and_iff_compat_l. apply neg_not. rewrite existsb_exists. unfold by_steps. split; intros (b & Hb & H); exists b; (split; [apply (Cl 76); exact Hb|]).
    - rewrite orb_true_iff, !andb_true_iff, !w2_proof, !ahead_proof in H. exact H.
    - rewrite orb_true_iff, !andb_true_iff, !w2_proof, !ahead_proof. exact H.
  Qed.

  (** ** w3 *)
  Hypothesis all_there : forall c, seen log ign c -> find_transition_by_name net c <> None.
  Lemma meet_proof x y : meet x y = true <-> exists q, In q x /\ In q y.
  Proof.
    unfold meet. rewrite existsb_exists. split; intros (q & Hq & H); exists q; (split; [exact Hq|]); [apply existsb_exists in H; destruct H as (u & Hu & E); apply N.eqb_eq in E; congruence|].
    apply existsb_exists. exists q. split; [exact H|apply N.eqb_refl].
  Qed.
  Lemma pre_set_proof c : seen log ign c -> exists l, pre_set net c = Ok l /\ forall q, In q l <-> drains net q c.
  Proof. intros H. unfold pre_set. destruct (find_transition_by_name net c) as [t|] eqn:F; [|exfalso; exact (all_there c H F)]. exists (arc_places (tr_in t)). split; [reflexivity|]. intros q. apply (drains_found c t q F). Qed.
  Lemma post_set_proof c : seen log ign c -> exists l, post_set net c = Ok l /\ forall q, In q l <-> feeds net q c.
  Proof. intros H. unfold post_set. destruct (find_transition_by_name net c) as [t|] eqn:F; [|exfalso; exact (all_there c H F)]. exists (arc_places (tr_out t)). split; [reflexivity|]. intros q. apply (feeds_found c t q F). Qed.
  Lemma any_pair_proof f (P : pystr -> pystr -> Prop) pairs : (forall x y, In (x, y) pairs -> exists v, f x y = Ok v /\ (v = true <-> P x y)) ->
    exists v, any_pair f pairs = Ok v /\ (v = true <-> exists x y, In (x, y) pairs /\ P x y).
  Proof.
    induction pairs as [|[x y] l IH]; intros H; cbn [any_pair]; [exists false; split; [reflexivity|]; split; [discriminate|intros (x & y & [] & _)]|].
    destruct (H x y (or_introl eq_refl)) as (v & E & V). rewrite E. cbn [bind]. destruct v.
    - exists true. split; [reflexivity|]. split; [|reflexivity]. intros _. exists x, y. split; [left; reflexivity|apply V; reflexivity].
    - destruct IH as (v & E' & V'); [intros u w Hu; apply H; right; exact Hu|]. exists v. split; [exact E'|]. rewrite V'. split; intros (u & w & Hu & Pu); exists u, w; (split; [|exact Pu]).
      + right. exact Hu.
      + destruct Hu as [Hu|Hu]; [|exact Hu]. injection Hu as <- <-. apply V in Pu. discriminate.
  Qed.
  Lemma mapM_proof {A B} (f : A -> result B) (Q : A -> B -> Prop) l : (forall x, In x l -> exists y, f x = Ok y /\ Q x y) -> exists ys, mapM f l = Ok ys /\ Forall2 Q l ys.
  Proof.
    induction l as [|x l IH]; intros H; [exists []; split; [reflexivity|constructor]|]. destruct (H x (or_introl eq_refl)) as (y & E & V). destruct IH as (ys & E' & F); [intros u Hu; apply H; right; exact Hu|].
    exists (y :: ys). split; [cbn [mapM]; rewrite E; cbn [bind]; rewrite E'; reflexivity|constructor; assumption].
  Qed.
  Lemma concat_proof {A} (Q : A -> N -> Prop) l ys : Forall2 (fun x y => forall q, In q y <-> Q x q) l ys -> forall q, In q (concat ys) <-> exists x, In x l /\ Q x q.
  Proof.
    induction 1 as [|x y l ys H _ IH]; intros q; cbn [concat]; [split; [intros []|intros (x & [] & _)]|]. rewrite in_app_iff, H, IH. split.
    - intros [X|(u & Hu & X)]; [exists x|exists u]; cbn; auto.
    - intros (u & [->|Hu] & X); [left; exact X|right; eauto].
  Qed.
  Lemma pair_proof a b post pre a' b' : (forall q, In q post <-> feeds net q a) -> (forall q, In q pre <-> drains net q b) -> seen log ign a' -> seen log ign b' ->
    exists v, w3_pair_holds ord arr p net a b post pre a' b' = Ok v /\ (v = true <-> a' <> b' /\
      (exists place, feeds net place a /\ feeds net place a') /\ (exists place, drains net place b /\ drains net place b') /\
      arr a b' <> true /\ arr a' b <> true /\ arr a' b' = true /\
      forall place, drains net place b -> drains net place b' \/
        exists c, seen log ign c /\ arr a c <> true /\ arr a' c = true /\ tied log ign more arrow b' c /\ (exists q, drains net q b /\ drains net q c) /\ drains net place c).
  Proof.
    intros Ha Hb Sa Sb. unfold w3_pair_holds. destruct (str_eqb a' b') eqn:Eq; [apply str_eqb_eq in Eq; exists false; split; [reflexivity|]; split; [discriminate|]; intros (X & _); congruence|].
    assert (Ne : a' <> b') by (intros ->; rewrite str_eqb_refl in Eq; discriminate). destruct (post_set_proof a' Sa) as (pa & Ea & Va). destruct (pre_set_proof b' Sb) as (pb & Eb & Vb). rewrite Ea. cbn [bind]. rewrite Eb. cbn [bind].
    assert (M1 := meet_proof post pa). assert (M2 := meet_proof pre pb).
    destruct (meet post pa); cbn [negb]; [|exists false; split; [reflexivity|]; split; [discriminate|]; intros (_ & (q & X & Y) & _); apply M1; exists q; rewrite Ha, Va; auto].
    destruct (meet pre pb); cbn [negb]; [|exists false; split; [reflexivity|]; split; [discriminate|]; intros (_ & _ & (q & X & Y) & _); apply M2; exists q; rewrite Hb, Vb; auto].
    destruct (proj1 M1 eq_refl) as (q1 & Q1 & Q1'). destruct (proj1 M2 eq_refl) as (q2 & Q2 & Q2'). rewrite Ha in Q1. rewrite Va in Q1'. rewrite Hb in Q2. rewrite Vb in Q2'.
    destruct (arr a b') eqn:A1; [exists false; split; [reflexivity|]; split; [discriminate|]; intros (_ & _ & _ & X & _); congruence|].
    destruct (arr a' b) eqn:A2; [exists false; split; [reflexivity|]; split; [discriminate|]; intros (_ & _ & _ & _ & X & _); congruence|].
    destruct (arr a' b') eqn:A3; cbn [negb]; [|exists false; split; [reflexivity|]; split; [discriminate|]; intros (_ & _ & _ & _ & _ & X & _); congruence].
    destruct (mapM_proof (task_places arr p net a a' b' pre) (fun c l => forall q, In q l <-> (arr a c <> true /\ arr a' c = true /\ tied log ign more arrow b' c /\ (exists q, drains net q b /\ drains net q c)) /\ drains net q c) (r_all_event_classes ord 73 (np_info p))) as (ys & Ey & Fy).
    { intros c Hc. apply Cl in Hc. unfold task_places. destruct (arr a c) eqn:B1; [exists []; split; [reflexivity|]; intros q; split; [intros []|tauto]|].
      destruct (arr a' c) eqn:B2; cbn [negb]; [|exists []; split; [reflexivity|]; intros q; split; [intros []|intuition congruence]].
      assert (T : nfc_parallel p b' c || (nfc_causal p b' c || arr b' c) = true <-> tied log ign more arrow b' c) by (rewrite orb_true_iff, ahead_proof, R4; unfold tied; tauto).
      destruct (nfc_parallel p b' c || (nfc_causal p b' c || arr b' c)) eqn:B3; cbn [negb]; [|exists []; split; [reflexivity|]; intros q; split; [intros []|intros ((_ & _ & X & _) & _); apply T in X; discriminate]].
      destruct (pre_set_proof c Hc) as (pc & Ec & Vc). rewrite Ec. cbn [bind]. assert (M3 := meet_proof pre pc). exists (if meet pre pc then pc else []). split; [reflexivity|]. intros q. destruct (meet pre pc).
      - rewrite Vc. split; [|tauto]. intros D. split; [|exact D]. split; [discriminate|]. split; [reflexivity|]. split; [apply T; reflexivity|]. destruct (proj1 M3 eq_refl) as (u & U1 & U2). exists u. rewrite <- Hb, <- Vc. auto.
      - split; [intros []|]. intros ((_ & _ & _ & u & U1 & U2) & _). assert (X : false = true) by (apply M3; exists u; rewrite Hb, Vc; auto). discriminate. }
    rewrite Ey. cbn [bind]. eexists. split; [reflexivity|]. rewrite forallb_forall.
    assert (In_all : forall q, existsb (N.eqb q) (concat ys ++ pb) = true <-> drains net q b' \/ exists c, seen log ign c /\ arr a c <> true /\ arr a' c = true /\ tied log ign more arrow b' c /\ (exists q, drains net q b /\ drains net q c) /\ drains net q c).
    { intros q. transitivity (In q (concat ys ++ pb)); [rewrite existsb_exists; split; [intros (u & Hu & E); apply N.eqb_eq in E; congruence|intros H; exists q; split; [exact H|apply N.eqb_refl]]|].
      rewrite in_app_iff, Vb, (concat_proof _ _ _ Fy). split.
      - intros [(c & Hc & X)|X]; [right; exists c; apply Cl in Hc; tauto|left; exact X].
      - intros [X|(c & Hc & X)]; [right; exact X|left; exists c; rewrite (Cl 73 c); tauto]. }
    split.
    - intros H. split; [exact Ne|]. split; [exists q1; auto|]. split; [exists q2; auto|]. do 3 (split; [congruence|]). intros q Hq. apply In_all, H, Hb, Hq.
    - intros (_ & _ & _ & _ & _ & _ & H) q Hq. apply In_all, H, Hb, Hq.
  Qed.
  Lemma w3_proof a b : seen log ign a -> seen log ign b -> exists v, w3_relation ord arr p net a b = Ok v /\ (v = true <-> implied3 log ign more arrow net a b).
  Proof.
    intros Sa Sb. unfold w3_relation, implied3. destruct (arr a b) eqn:A; [|exists false; split; [reflexivity|]; split; [discriminate|intros (X & _); congruence]].
    destruct (post_set_proof a Sa) as (pa & Ea & Va). destruct (pre_set_proof b Sb) as (pb & Eb & Vb). rewrite Ea. cbn [bind]. rewrite Eb. cbn [bind].
    match goal with |- context [any_pair ?f ?l] => destruct (any_pair_proof f (fun a' b' => a' <> b' /\
      (exists place, feeds net place a /\ feeds net place a') /\ (exists place, drains net place b /\ drains net place b') /\
      arr a b' <> true /\ arr a' b <> true /\ arr a' b' = true /\
      forall place, drains net place b -> drains net place b' \/
        exists c, seen log ign c /\ arr a c <> true /\ arr a' c = true /\ tied log ign more arrow b' c /\ (exists q, drains net q b /\ drains net q c) /\ drains net place c) l) as (v & Ev & V) end.
    - intros x y H. apply in_prod_iff in H. apply (pair_proof a b pa pb x y Va Vb); [apply (Cl 74), H|apply (Cl 75), H].
    - exists v. split; [exact Ev|]. rewrite V. split.
      + intros (x & y & H & X). apply in_prod_iff in H. split; [reflexivity|]. exists x, y. split; [apply (Cl 74), H|]. split; [apply (Cl 75), H|]. exact X.
      + intros (_ & x & y & Hx & Hy & X). exists x, y. split; [apply in_prod; apply Cl; assumption|exact X].
  Qed.
End Rel.
