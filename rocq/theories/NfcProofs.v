(** Proofs about the relations of the alpha++ NFC algorithm. *)
From Coq Require Import Permutation.
From Verif Require Import Py PyFacts InfoModel InfoSpec InfoProofs ReplayModel RInfoModel RInfoSpec RInfoProofs AlphaModel AlphaSpec AlphaProofs AlphaProofs5 PlusSpec PlusProofs NfcModel NfcSpec.

Section Rel.
  Variable ord : nat -> forall A : Type, list A -> list A.
  Hypothesis O : any_order ord.
  Variable log : list (list pystr).
  Variable ign : option (list pystr).
  Variable p : nprov.
  Hypothesis Pinfo : np_info p = r_create_from ord log false ign.
  Hypothesis Plog : np_log p = log.
  Hypothesis Ptri : forall a b, In (a, b) (np_triangles p) <-> triangle log a b.
  Lemma direct_proof a b : nfc_direct p a b = true <-> follows log ign a b.
  Proof. unfold nfc_direct. rewrite Pinfo. apply (counts_proof ord O log false ign). Qed.
  Lemma triangle_proof a b : nfc_triangle p a b = true <-> triangle log a b.
  Proof. unfold nfc_triangle. rewrite <- Ptri. destruct (in_dec pair_eq_dec (a, b) (np_triangles p)); intuition discriminate. Qed.
  Lemma not_true (b : bool) (P : Prop) : (b = true <-> P) -> (negb b = true <-> ~ P).
  Proof. destruct b; cbn; intuition congruence. Qed.
  Lemma causal_proof a b : nfc_causal p a b = true <-> nfc_before log ign (np_more p) a b.
  Proof.
    unfold nfc_causal, nfc_before. destruct (in_dec pair_eq_dec (a, b) (np_more p)) as [H|H]; [tauto|].
    rewrite andb_true_iff, !orb_true_iff, (not_true _ _ (direct_proof b a)), direct_proof, !triangle_proof. tauto.
  Qed.
  Lemma parallel_proof a b : nfc_parallel p a b = true <-> nfc_beside log ign a b.
  Proof.
    unfold nfc_parallel, nfc_beside. rewrite !andb_true_iff, !direct_proof, negb_orb, andb_true_iff, !(not_true _ _ (triangle_proof _ _)). tauto.
  Qed.
  Lemma unrelated_proof a b : nfc_unrelated p a b = true <-> apart log ign a b.
  Proof. unfold nfc_unrelated, apart, unrelated. rewrite andb_true_iff, !(not_true _ _ (direct_proof _ _)). tauto. Qed.
  Lemma seen_proof c : seen log ign c <-> In c (occurrences log ign).
  Proof.
    unfold seen. rewrite occurrences_In. split.
    - intros [(t & Ht & H) K]. exists t. split; [exact Ht|]. apply kept_In. split; [exact H|]. exact K.
    - intros (t & Ht & H). apply kept_In in H. split; [exists t; tauto|]. tauto.
  Qed.
  Lemma classes_proof k c : In c (r_all_event_classes ord k (np_info p)) <-> seen log ign c.
  Proof. rewrite Pinfo, seen_proof. apply (counts_proof ord O log false ign). Qed.
  Lemma left_proof a b : left_triangle ord p a b = true <-> forked log ign (np_more p) a b.
  Proof.
    unfold left_triangle, forked. rewrite andb_true_iff, unrelated_proof, existsb_exists. split; intros [H (c & K)]; (split; [exact H|]); exists c;
      [destruct K as [K1 K2]; apply andb_true_iff in K2; rewrite !causal_proof in K2; apply classes_proof in K1; tauto|].
    rewrite andb_true_iff, !causal_proof, classes_proof. tauto.
  Qed.
  Lemma right_proof a b : right_triangle ord p a b = true <-> joined log ign (np_more p) a b.
  Proof.
    unfold right_triangle, joined. rewrite andb_true_iff, unrelated_proof, existsb_exists. split; intros [H (c & K)]; (split; [exact H|]); exists c;
      [destruct K as [K1 K2]; apply andb_true_iff in K2; rewrite !causal_proof in K2; apply classes_proof in K1; tauto|].
    rewrite andb_true_iff, !causal_proof, classes_proof. tauto.
  Qed.
  Definition fine (a : pystr) (between : list pystr) : Prop :=
    (exists c, In c between /\ seen log ign c) /\ forall c, In c between -> seen log ign c -> ~ forked log ign (np_more p) c a /\ ~ joined log ign (np_more p) c a.
  Lemma known_proof c : negb (r_event_count (np_info p) c =? 0) = true <-> seen log ign c.
  Proof.
    rewrite Pinfo, (proj1 (counts_proof ord O log false ign)), seen_proof, (count_occ_In str_eq_dec), negb_true_iff, Nat.eqb_neq. lia.
  Qed.
  Lemma suitable_proof a between : suitable ord p a between = true <-> fine a between.
  Proof.
    unfold suitable, fine. cbn zeta. set (k := filter _ between).
    assert (Hk : forall c, In c k <-> In c between /\ seen log ign c) by (intros c; unfold k; rewrite filter_In, known_proof; tauto).
    rewrite andb_true_iff, forallb_forall, Nat.ltb_lt. split.
    - intros [H L]. split.
      + destruct k as [|c r] eqn:E; [cbn in L; lia|]. exists c. apply Hk. left. reflexivity.
      + intros c H1 H2. assert (Hc : In c k) by (apply Hk; auto). specialize (H c Hc). rewrite negb_orb, andb_true_iff, (not_true _ _ (left_proof c a)), (not_true _ _ (right_proof c a)) in H. exact H.
    - intros [(c & Hc) H]. split.
      + intros d Hd. apply Hk in Hd. rewrite negb_orb, andb_true_iff, (not_true _ _ (left_proof d a)), (not_true _ _ (right_proof d a)). apply H; tauto.
      + apply Hk in Hc. destruct k; [destruct Hc|cbn; lia].
  Qed.
  Lemma scan_same a t : forall since, since = None \/ since = Some [] \/ True -> scan_trace ord p a a since t = false.
  Proof.
    induction t as [|n t IH]; intros since _; [reflexivity|]. cbn [scan_trace]. destruct (str_eqb n a); apply IH; tauto.
  Qed.
  Lemma scan_proof a b : a <> b -> forall t since, scan_trace ord p a b since t = true <->
    (exists pre mid l2, since = Some pre /\ t = mid ++ b :: l2 /\ ~ In a mid /\ ~ In b mid /\ fine a (pre ++ mid)) \/
    (exists l1 mid l2, t = l1 ++ a :: mid ++ b :: l2 /\ ~ In a mid /\ ~ In b mid /\ fine a mid).
  Proof.
    intros D t. induction t as [|n t IH]; intros since; cbn [scan_trace].
    - split; [discriminate|]. intros [(pre & mid & l2 & _ & E & _)|(l1 & mid & l2 & E & _)]; [destruct mid; discriminate|destruct l1; discriminate].
    - destruct (str_eqb n a) eqn:Ea; [|destruct (str_eqb n b) eqn:Eb].
      + apply str_eqb_eq in Ea. subst n. rewrite IH. split.
        * intros [(pre & mid & l2 & E & -> & H)|(l1 & mid & l2 & -> & H)].
          -- injection E as <-. right. exists [], mid, l2. split; [reflexivity|exact H].
          -- right. exists (a :: l1), mid, l2. split; [reflexivity|exact H].
        * intros [(pre & mid & l2 & _ & E & H1 & _)|(l1 & mid & l2 & E & H)].
          -- exfalso. destruct mid as [|m mid]; injection E as E1 E2; [congruence|]. apply H1. left. congruence.
          -- destruct l1 as [|x l1]; [injection E as E2|injection E as E1 E2].
             ++ left. exists [], mid, l2. split; [reflexivity|]. split; [exact E2|exact H].
             ++ right. exists l1, mid, l2. auto.
      + apply str_eqb_eq in Eb. subst n.
        assert (N : scan_trace ord p a b None t = true <-> exists l1 mid l2, b :: t = l1 ++ a :: mid ++ b :: l2 /\ ~ In a mid /\ ~ In b mid /\ fine a mid).
        { rewrite IH. split.
          - intros [(pre & mid & l2 & E & _)|(l1 & mid & l2 & -> & H)]; [discriminate|]. exists (b :: l1), mid, l2. split; [reflexivity|exact H].
          - intros (l1 & mid & l2 & E & H). destruct l1 as [|x l1]; injection E as E1 E2; [congruence|]. right. exists l1, mid, l2. auto. }
        destruct since as [pre|].
        * destruct (suitable ord p a pre) eqn:Es.
          -- split; [intros _|reflexivity]. apply suitable_proof in Es. left. exists pre, [], t. rewrite app_nil_r. split; [reflexivity|]. split; [reflexivity|]. split; [intros []|]. split; [intros []|exact Es].
          -- rewrite N. split; [auto|]. intros [(pre' & mid & l2 & E & E2 & H1 & H2 & H3)|H]; [|exact H]. exfalso. destruct mid as [|m mid]; [clear E2|injection E2 as E2 E3].
             ++ injection E as <-. rewrite app_nil_r in H3. apply suitable_proof in H3. congruence.
             ++ apply H2. left. congruence.
        * rewrite N. split; [auto|]. intros [(pre' & mid & l2 & E & _)|H]; [discriminate|exact H].
      + assert (na : n <> a) by (intros ->; rewrite str_eqb_refl in Ea; discriminate). assert (nb : n <> b) by (intros ->; rewrite str_eqb_refl in Eb; discriminate).
        rewrite IH. split.
        * intros [(pre & mid & l2 & E & -> & H1 & H2 & H3)|(l1 & mid & l2 & -> & H)].
          -- left. destruct since as [pre0|]; [|discriminate]. injection E as <-. exists pre0, (n :: mid), l2. rewrite <- app_assoc in H3. cbn [In]. split; [reflexivity|]. split; [reflexivity|]. split; [tauto|]. split; [tauto|exact H3].
          -- right. exists (n :: l1), mid, l2. split; [reflexivity|exact H].
        * intros [(pre & mid & l2 & -> & E & H1 & H2 & H3)|(l1 & mid & l2 & E & H)].
          -- left. destruct mid as [|m mid]; injection E as E1 E2; [congruence|]. subst m. exists (pre ++ [n]), mid, l2. cbn [option_map]. rewrite <- app_assoc. cbn [In] in H1, H2. split; [reflexivity|]. split; [exact E2|]. split; [tauto|]. split; [tauto|exact H3].
          -- right. destruct l1 as [|x l1]; injection E as E1 E2; [congruence|]. exists l1, mid, l2. auto.
  Qed.
  Lemma double_arrow_proof a b : double_arrow ord p a b = true <-> later log ign (np_more p) a b.
  Proof.
    unfold double_arrow, later. destruct (nfc_direct p a b) eqn:E.
    - apply direct_proof in E. split; [discriminate|tauto].
    - assert (F : ~ follows log ign a b) by (rewrite <- direct_proof; congruence). rewrite Plog, existsb_exists. destruct (list_eq_dec N.eq_dec a b) as [<-|D].
      + split; [|tauto]. intros (t & _ & H). rewrite scan_same in H by tauto. discriminate.
      + split.
        * intros (t & Ht & H). apply scan_proof in H; [|exact D]. destruct H as [(pre & mid & l2 & H & _)|(l1 & mid & l2 & -> & H1 & H2 & H3)]; [discriminate|].
          split; [exact D|]. split; [exact F|]. exists l1, mid, l2. unfold fine in H3. tauto.
        * intros (_ & _ & l1 & mid & l2 & Hl & H1 & H2 & H3). exists (l1 ++ a :: mid ++ b :: l2). split; [exact Hl|]. apply scan_proof; [exact D|]. right. exists l1, mid, l2. unfold fine. auto.
  Qed.
End Rel.

(** ** Caches *)
Lemma cache_get_put c a b v x y : cache_get (cache_put c a b v) x y = match cache_get c x y with Some w => Some w | None => if pair_eq_dec (x, y) (a, b) then Some v else None end.
Proof.
  unfold cache_put. destruct (cache_get c a b) as [w|] eqn:E.
  - destruct (cache_get c x y) eqn:E2; [reflexivity|]. destruct (pair_eq_dec (x, y) (a, b)) as [H|H]; [|reflexivity]. injection H as -> ->. congruence.
  - unfold cache_get in *. clear E. induction c as [|[k u] c IH]; cbn [app dget].
    + reflexivity.
    + destruct (pair_eq_dec (x, y) k); [reflexivity|exact IH].
Qed.
Lemma arrow_keeps ord p c a b v c' : right_double_arrow ord p c a b = (v, c') ->
  cache_get c' a b = Some v /\ (forall x y w, cache_get c x y = Some w -> cache_get c' x y = Some w) /\
  (forall x y, (x, y) <> (a, b) -> cache_get c' x y = cache_get c x y) /\ (cache_get c a b = None -> v = double_arrow ord p a b).
Proof.
  unfold right_double_arrow. intros H. injection H as <- <-. repeat split.
  - rewrite cache_get_put. destruct (cache_get c a b); [reflexivity|]. destruct (pair_eq_dec (a, b) (a, b)); congruence.
  - intros x y w H. rewrite cache_get_put, H. reflexivity.
  - intros x y H. rewrite cache_get_put. destruct (cache_get c x y); [reflexivity|]. destruct (pair_eq_dec (x, y) (a, b)); [contradiction|reflexivity].
  - intros ->. reflexivity.
Qed.
