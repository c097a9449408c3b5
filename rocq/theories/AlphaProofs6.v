(** Proofs about the alpha algorithm: what its net connects and replays. *)
From Coq Require Import Permutation.
From Verif Require Import Py PyFacts InfoModel InfoSpec InfoProofs ReplayModel ReplaySpec ReplayProofs HMutProofs RInfoModel RInfoSpec RInfoProofs AlphaModel AlphaSpec AlphaProofs AlphaProofs2 AlphaProofs3 AlphaProofs4 AlphaProofs5.

Lemma follows_split log a b : follows log None a b <-> exists l1 l2, In (l1 ++ a :: b :: l2) log.
Proof.
  assert (K : forall t, walk false (kept None t) = t).
  { intros t. assert (E : kept None t = t) by (unfold kept; induction t as [|x l IH]; [reflexivity|cbn; f_equal; exact IH]). rewrite E. destruct t; reflexivity. }
  assert (S : forall t : list pystr, In (a, b) (neighbours t) <-> exists l1 l2, t = l1 ++ a :: b :: l2).
  { induction t as [|x t IH]; [split; [intros []|intros ([|? ?] & l2 & E); discriminate]|]. destruct t as [|y t].
    - split; [intros []|]. intros ([|? [|? ?]] & l2 & E); discriminate.
    - rewrite neighbours_cons. split.
      + intros [H|H]; [injection H as -> ->; exists [], t; reflexivity|]. apply IH in H. destruct H as (l1 & l2 & E). exists (x :: l1), l2. rewrite E. reflexivity.
      + intros ([|z l1] & l2 & E); [injection E as -> -> _; left; reflexivity|]. right. apply IH. injection E as _ E. exists l1, l2. exact E. }
  unfold follows, steps. rewrite in_flat_map. split.
  - intros (t & Ht & H). rewrite K in H. apply S in H. destruct H as (l1 & l2 & ->). eauto.
  - intros (l1 & l2 & H). exists (l1 ++ a :: b :: l2). split; [exact H|]. rewrite K. apply S. eauto.
Qed.

(** A pair which fits is within a maximal one. *)
Lemma within_maximal log A B : fits (causal log None) (unrelated log None) A B -> exists A' B', maximal (causal log None) (unrelated log None) A' B' /\ incl A A' /\ incl B B'.
Proof.
  intros F. set (ord := fun (_ : nat) (A : Type) (l : list A) => l). assert (O : any_order ord) by (intros k T l; reflexivity).
  set (p := default_provider (r_create_from ord log false None)).
  destruct (counts_proof ord O log false None) as (_ & Hcl & _ & Hd & _).
  assert (Hc : forall a b, ap_causal p a b = true <-> causal log None a b).
  { intros a b. cbn [p default_provider ap_causal]. unfold causal, follows. rewrite andb_true_iff, negb_true_iff, <- !Hd. destruct (r_directly_follows _ b a); intuition congruence. }
  assert (Hu : forall a b, ap_unrelated p a b = true <-> unrelated log None a b).
  { intros a b. cbn [p default_provider ap_unrelated]. unfold unrelated, follows. rewrite andb_true_iff, !negb_true_iff, <- !Hd. destruct (r_directly_follows _ a b), (r_directly_follows _ b a); intuition congruence. }
  assert (Hk : forall a b, ap_causal p a b = true -> In a (occurrences log None) /\ In b (occurrences log None)).
  { intros a b H. apply Hc in H. apply steps_classes. apply H. }
  assert (SA : same_names A (bset_of A)) by (intros c; rewrite bset_of_In; reflexivity). assert (SB : same_names B (bset_of B)) by (intros c; rewrite bset_of_In; reflexivity).
  assert (G : good p (mkASet (bset_of A) (bset_of B))).
  { split; [intros []; apply bset_of_sorted|]. apply (fits_iff _ _ _ _ Hc Hu). cbn [as_left as_right]. destruct F as (N1 & N2 & F1 & F2 & F3). split; [|split; [|split; [|split]]].
    - destruct A as [|a A]; [congruence|]. intros E. pose proof (proj1 (SA a) (or_introl eq_refl)) as X. rewrite E in X. destruct X.
    - destruct B as [|a B]; [congruence|]. intros E. pose proof (proj1 (SB a) (or_introl eq_refl)) as X. rewrite E in X. destruct X.
    - intros a b Ha Hb. apply F1; [apply SA, Ha|apply SB, Hb].
    - intros a b Ha Hb. apply F2; apply SA; assumption.
    - intros a b Ha Hb. apply F3; apply SB; assumption. }
  destruct (maximal_above p (occurrences log None) Hk _ _ G (Nat.lt_succ_diag_r _)) as (M & GM & W & MM).
  exists (as_left M), (as_right M). split; [|split; intros c H; [apply (W true)|apply (W false)]; cbn [sd as_left as_right]; apply bset_of_In; exact H].
  apply (maximal_iff2 _ _ _ _ Hc Hu). apply (maximal_iff p); [apply GM|]. split; [exact GM|exact MM].
Qed.

Section Net.
  Variable log : list (list pystr).
  Variable net : pnet.
  Hypothesis A : alpha_net (causal log None) (unrelated log None) (fun c => exists t, In t log /\ In c t) (begins_trace log) (ends_trace log) net.

  Lemma feeds_place pl c : feeds net pl c \/ drains net pl c -> In pl (dkeys (n_places net)).
  Proof.
    intros [H|H]; destruct H as (t & Ht & _ & H); apply in_map_iff in H; destruct H as (a & <- & Ha); apply (an_arcs _ _ _ _ _ _ A t a Ht); auto.
  Qed.
  Lemma connected_proof a b :
    (exists place, feeds net place a /\ drains net place b) <-> (causal log None a b /\ unrelated log None a a /\ unrelated log None b b).
  Proof.
    destruct (an_places _ _ _ _ _ _ A) as (start & stop & Hss & Hst & Hen & Hi & Hf & P1 & P2 & P3 & P4 & P5 & P6). split.
    - intros (pl & H1 & H2). assert (N1 : pl <> start) by (intros ->; apply (P1 a H1)). assert (N2 : pl <> stop) by (intros ->; apply (P4 b H2)).
      destruct (P5 pl (feeds_place pl a (or_introl H1)) N1 N2) as (S & T & [(_ & _ & F1 & F2 & F3) _] & [Q1 Q2]). apply Q1 in H1. apply Q2 in H2. auto.
    - intros (H1 & H2 & H3). destruct (within_maximal log [a] [b]) as (S & T & M & I1 & I2).
      { split; [discriminate|]. split; [discriminate|]. split; [|split]; intros x y [<-|[]] [<-|[]]; assumption. }
      destruct (P6 S T M) as (pl & _ & _ & _ & [Q1 Q2] & _). exists pl. split; [apply Q1, I1; left; reflexivity|apply Q2, I2; left; reflexivity].
  Qed.
  Lemma alpha_replayable : simple_net net /\ ids_distinct net /\ silent_ends net /\ exists start stop, n_initial net = Some [(start, 1)] /\ n_final net = Some [(stop, 1)] /\ proper [(start, 1)].
  Proof.
    split; [exact (an_in_once _ _ _ _ _ _ A)|]. split; [|split].
    - pose proof (an_ids _ _ _ _ _ _ A) as H. unfold all_ids in H. split; [eapply AlphaProofs4.NoDup_app_l, H|]. apply HMutProofs.NoDup_app_r in H. apply HMutProofs.NoDup_app_r in H. exact H.
    - intros m. constructor. intros m' (t & Ht & Hs & _). rewrite (an_loud _ _ _ _ _ _ A t Ht) in Hs. discriminate.
    - destruct (an_places _ _ _ _ _ _ A) as (start & stop & _ & _ & _ & Hi & Hf & _). exists start, stop. split; [exact Hi|]. split; [exact Hf|]. split; [repeat constructor; intros []|].
      intros q n [H|[]]. injection H as _ <-. lia.
  Qed.
End Net.

(** What a place stands for does not depend on the order of hash tables. *)
Lemma order_proof log net net' :
  alpha_net (causal log None) (unrelated log None) (fun c => exists t, In t log /\ In c t) (begins_trace log) (ends_trace log) net ->
  alpha_net (causal log None) (unrelated log None) (fun c => exists t, In t log /\ In c t) (begins_trace log) (ends_trace log) net' ->
  forall A B, (exists place, In place (dkeys (n_places net)) /\ stands_for net place A B) -> exists place, In place (dkeys (n_places net')) /\ stands_for net' place A B.
Proof.
  intros H H' A B (pl & Hp & S1 & S2).
  destruct (an_places _ _ _ _ _ _ H) as (start & stop & _ & _ & _ & _ & _ & P1 & P2 & P3 & P4 & P5 & _). destruct (an_places _ _ _ _ _ _ H') as (start' & stop' & _ & Hst & Hen & _ & _ & Q1 & Q2 & Q3 & Q4 & _ & Q6).
  destruct (N.eq_dec pl start) as [->|N1]; [|destruct (N.eq_dec pl stop) as [->|N2]].
  - exists start'. split; [apply (in_map fst) in Hst; exact Hst|]. split; intros c; [rewrite <- S1; split; intros X; [destruct (Q1 c X)|destruct (P1 c X)]|rewrite <- S2, P2; apply Q2].
  - exists stop'. split; [apply (in_map fst) in Hen; exact Hen|]. split; intros c; [rewrite <- S1, P3; apply Q3|rewrite <- S2; split; intros X; [destruct (Q4 c X)|destruct (P4 c X)]].
  - destruct (P5 pl Hp N1 N2) as (A' & B' & M & T1 & T2). destruct (Q6 A' B' M) as (pl' & Hp' & _ & _ & [U1 U2] & _). exists pl'. split; [exact Hp'|].
    split; intros c; [rewrite <- S1, T1; apply U1|rewrite <- S2, T2; apply U2].
Qed.

(** ** Logs of one sequence *)
Section Sequence.
  Variable log : list (list pystr).
  Variable tr : list pystr.
  Hypothesis same : forall t, In t log -> t = tr.
  Hypothesis some : In tr log.
  Hypothesis once : NoDup tr.
  Hypothesis not_empty : tr <> [].
  Variable net : pnet.
  Hypothesis A : alpha_net (causal log None) (unrelated log None) (fun c => exists t, In t log /\ In c t) (begins_trace log) (ends_trace log) net.

  Lemma split_once (l1 l2 m1 m2 : list pystr) x : NoDup (l1 ++ x :: l2) -> l1 ++ x :: l2 = m1 ++ x :: m2 -> l1 = m1 /\ l2 = m2.
  Proof.
    revert m1. induction l1 as [|y l1 IH]; intros [|z m1] ND E; cbn [app] in *.
    - injection E as ->. auto.
    - exfalso. injection E as <- E. inversion ND as [|? ? Hn _]; subst. apply Hn. apply in_app_iff. right. left. reflexivity.
    - exfalso. injection E as -> E. inversion ND as [|? ? Hn _]; subst. apply Hn. apply in_app_iff. right. left. reflexivity.
    - injection E as <- E. inversion ND as [|? ? Hn ND']; subst. destruct (IH m1 ND' E) as [-> ->]. auto.
  Qed.
  Lemma seq_follows a b : follows log None a b <-> exists l1 l2, tr = l1 ++ a :: b :: l2.
  Proof. rewrite follows_split. split; intros (l1 & l2 & H); exists l1, l2; [symmetry; apply same, H|rewrite <- H; exact some]. Qed.
  Lemma seq_next a b b' : follows log None a b -> follows log None a b' -> b = b'.
  Proof.
    rewrite !seq_follows. intros (l1 & l2 & E) (m1 & m2 & E'). rewrite E in E'. pose proof once as ND. rewrite E in ND. destruct (split_once _ _ _ _ _ ND E') as [_ X]. congruence.
  Qed.
  Lemma seq_prev a a' b : follows log None a b -> follows log None a' b -> a = a'.
  Proof.
    rewrite !seq_follows. intros (l1 & l2 & E) (m1 & m2 & E'). rewrite E in E'. pose proof once as ND. rewrite E in ND.
    assert (X : (l1 ++ [a]) ++ b :: l2 = (m1 ++ [a']) ++ b :: m2) by (rewrite <- !app_assoc; exact E'). rewrite (app_assoc l1 [a] (b :: l2) : l1 ++ a :: b :: l2 = _) in ND.
    destruct (split_once _ _ _ _ _ ND X) as [Y _]. apply app_inj_tail in Y. apply Y.
  Qed.
  Lemma seq_order a b : follows log None a b -> ~ follows log None b a.
  Proof.
    rewrite !seq_follows. intros (l1 & l2 & E) (m1 & m2 & E'). rewrite E in E'. pose proof once as ND. rewrite E in ND.
    assert (X : (l1 ++ [a]) ++ b :: l2 = m1 ++ b :: a :: m2) by (rewrite <- !app_assoc; exact E').
    rewrite (app_assoc l1 [a] (b :: l2) : l1 ++ a :: b :: l2 = _) in ND. destruct (split_once _ _ _ _ _ ND X) as [_ Y]. subst l2.
    rewrite <- app_assoc in ND. cbn [app] in ND. apply HMutProofs.NoDup_app_r in ND. inversion ND as [|? ? Hn _]; subst. apply Hn. right. left. reflexivity.
  Qed.
  Lemma seq_unrelated a : unrelated log None a a.
  Proof. split; intros H; apply (seq_order a a H H). Qed.
  Lemma seq_causal a b : causal log None a b <-> follows log None a b.
  Proof. split; [intros H; apply H|]. intros H. split; [exact H|apply seq_order, H]. Qed.
  Lemma seq_maximal S T : maximal (causal log None) (unrelated log None) S T -> exists a b, same_names S [a] /\ same_names T [b] /\ follows log None a b.
  Proof.
    intros [(N1 & N2 & F1 & F2 & F3) _]. destruct S as [|a S]; [congruence|]. destruct T as [|b T]; [congruence|]. exists a, b.
    assert (Hab : follows log None a b) by (apply F1; left; reflexivity). split; [|split; [|exact Hab]]; intros c; (split; [intros Hc|intros [<-|[]]; left; reflexivity]); left.
    - eapply seq_prev; [exact Hab|]. apply (F1 c b); [exact Hc|left; reflexivity].
    - eapply seq_next; [exact Hab|]. apply (F1 a c); [left; reflexivity|exact Hc].
  Qed.
  Lemma seq_pair a b : follows log None a b -> maximal (causal log None) (unrelated log None) [a] [b].
  Proof.
    intros H. split.
    - split; [discriminate|]. split; [discriminate|]. split; [|split]; intros x y [<-|[]] [<-|[]]; try apply seq_unrelated. apply seq_causal, H.
    - intros S T (N1 & N2 & F1 & F2 & F3) I1 I2. split; intros c Hc; left.
      + eapply seq_prev; [exact H|]. apply (F1 c b); [exact Hc|apply I2; left; reflexivity].
      + eapply seq_next; [exact H|]. apply (F1 a c); [apply I1; left; reflexivity|exact Hc].
  Qed.
  Lemma seq_begins c : begins_trace log c <-> exists l, tr = c :: l.
  Proof. split; intros [l H]; exists l; [symmetry; apply same, H|rewrite <- H; exact some]. Qed.
  Lemma seq_ends c : ends_trace log c <-> exists l, tr = l ++ [c].
  Proof. split; intros [l H]; exists l; [symmetry; apply same, H|rewrite <- H; exact some]. Qed.

  Lemma only_count (l : list N) x : NoDup l -> (forall y, In y l <-> y = x) -> forall q, count_occ N.eq_dec l q = if N.eq_dec x q then 1 else 0.
  Proof.
    intros ND H q. destruct (N.eq_dec x q) as [->|Hne].
    - apply (NoDup_count_occ' N.eq_dec l); [exact ND|apply H; reflexivity].
    - apply count_occ_not_In. intros X. apply H in X. congruence.
  Qed.
  Variable start stop : N.
  Hypothesis P1 : forall c, ~ feeds net start c.
  Hypothesis P2 : forall c, drains net start c <-> begins_trace log c.
  Hypothesis P3 : forall c, feeds net stop c <-> ends_trace log c.
  Hypothesis P4 : forall c, ~ drains net stop c.
  Hypothesis P5 : forall place, In place (dkeys (n_places net)) -> place <> start -> place <> stop -> exists S T, maximal (causal log None) (unrelated log None) S T /\ stands_for net place S T.
  Hypothesis P6 : forall S T, maximal (causal log None) (unrelated log None) S T ->
    exists place, In place (dkeys (n_places net)) /\ place <> start /\ place <> stop /\ stands_for net place S T /\
      forall place', In place' (dkeys (n_places net)) -> place' <> start -> place' <> stop -> stands_for net place' S T -> place' = place.

  (** The place after [l1] and before [l2]. *)
  Definition between (l1 l2 : list pystr) (pl : N) : Prop :=
    (forall c, drains net pl c <-> exists l, l2 = c :: l) /\ (forall c, feeds net pl c <-> exists l, l1 = l ++ [c]) /\ In pl (dkeys (n_places net)).
  Lemma places_known : In start (dkeys (n_places net)) /\ In stop (dkeys (n_places net)).
  Proof.
    assert (X : exists x l, tr = x :: l) by (destruct tr as [|x l]; [congruence|eauto]). destruct X as (x & l & E). split.
    - apply (feeds_place log net A start x). right. apply P2, seq_begins. exists l. exact E.
    - destruct (exists_last not_empty) as (l' & y & Ey). apply (feeds_place log net A stop y). left. apply P3, seq_ends. exists l'. exact Ey.
  Qed.
  Lemma between_ex l1 l2 : tr = l1 ++ l2 -> exists pl, between l1 l2 pl /\ (l1 = [] -> pl = start) /\ (l2 = [] -> pl = stop).
  Proof.
    intros E. destruct places_known as [K1 K2]. destruct l1 as [|x l1'] eqn:E1.
    - exists start. split; [|split; [reflexivity|intros ->; cbn in E; congruence]]. split; [|split; [|exact K1]].
      + intros c. rewrite P2, seq_begins, E. reflexivity.
      + intros c. split; [intros H; destruct (P1 c H)|]. intros (l & X). destruct l; discriminate.
    - destruct l2 as [|b l2'] eqn:E2.
      + exists stop. split; [|split; [discriminate|reflexivity]]. split; [|split; [|exact K2]].
        * intros c. split; [intros H; destruct (P4 c H)|]. intros (l & X). discriminate.
        * intros c. rewrite P3, seq_ends, E, app_nil_r. reflexivity.
      + rewrite <- E1 in *. assert (Hne : l1 <> []) by congruence. destruct (exists_last Hne) as (m & a & Em).
        assert (Hf : follows log None a b). { apply seq_follows. exists m, l2'. rewrite E, Em, <- app_assoc. reflexivity. }
        destruct (P6 _ _ (seq_pair a b Hf)) as (pl & Hk & _ & _ & [S1 S2] & _). exists pl. split; [|split; [congruence|discriminate]]. split; [|split; [|exact Hk]].
        * intros c. rewrite S2. split; [intros [<-|[]]; eauto|]. intros (l & X). left. congruence.
        * intros c. rewrite S1. rewrite Em. split; [intros [<-|[]]; eauto|]. intros (l & X). left. apply app_inj_tail in X. apply X.
  Qed.
  Lemma between_one l1 l2 pl q : tr = l1 ++ l2 -> between l1 l2 pl -> In q (dkeys (n_places net)) ->
    (forall c l, l2 = c :: l -> drains net q c -> q = pl) /\ (forall c l, l1 = l ++ [c] -> feeds net q c -> q = pl).
  Proof.
    intros E (B1 & B2 & K) Kq. split.
    - intros c l El H. destruct (N.eq_dec q start) as [->|N1].
      + apply P2, seq_begins in H. destruct H as (m & Em). assert (l1 = []).
        { rewrite E, El in Em. pose proof once as ND. rewrite E, El in ND. destruct (split_once l1 l [] m c ND Em). assumption. }
        subst l1. destruct (N.eq_dec pl start) as [->|M1]; [reflexivity|]. assert (M2 : pl <> stop) by (intros ->; apply (P4 c), B1; eauto).
        destruct (P5 pl K M1 M2) as (S & T & M & S1 & S2). destruct (seq_maximal S T M) as (a & b & HS & _). assert (X : feeds net pl a) by (apply S1, HS; left; reflexivity). apply B2 in X. destruct X as ([|? ?] & X); discriminate.
      + assert (N2 : q <> stop) by (intros ->; apply (P4 c H)). destruct (P5 q Kq N1 N2) as (S & T & M & S1 & S2). destruct (seq_maximal S T M) as (a & b & HS & HT & Hf).
        assert (b = c) by (apply S2, HT in H; destruct H as [H|[]]; exact H). subst b.
        pose proof Hf as Hf'. apply seq_follows in Hf'. destruct Hf' as (m1 & m2 & Em). assert (X : l1 = m1 ++ [a]).
        { pose proof once as ND. rewrite E, El in ND. assert (Y : l1 ++ c :: l = (m1 ++ [a]) ++ c :: m2) by (rewrite <- app_assoc; cbn [app]; rewrite <- El, <- E; exact Em). apply (split_once _ _ _ _ _ ND Y). }
        assert (Fa : feeds net pl a) by (apply B2; exists m1; exact X). assert (Dc : drains net pl c) by (apply B1; eauto).
        assert (M1 : pl <> start) by (intros ->; apply (P1 a Fa)). assert (M2 : pl <> stop) by (intros ->; apply (P4 c Dc)).
        destruct (P6 _ _ (seq_pair a c Hf)) as (z & _ & _ & _ & _ & Uq). rewrite (Uq q Kq N1 N2), (Uq pl K M1 M2); [reflexivity| |].
        * split; intros d; [rewrite B2, X|rewrite B1, El]; (split; [intros (l' & Y)|intros [<-|[]]; eauto]); left; [apply app_inj_tail in Y; apply Y|congruence].
        * split; intros d; [rewrite S1; apply HS|rewrite S2; apply HT].
    - intros c l El H. destruct (N.eq_dec q stop) as [->|N2].
      + apply P3, seq_ends in H. destruct H as (m & Em). assert (l2 = []).
        { pose proof once as ND. rewrite E, El, <- app_assoc in ND. assert (Y : l ++ c :: l2 = m ++ c :: []) by (rewrite <- Em, E, El, <- app_assoc; reflexivity). apply (split_once _ _ _ _ _ ND Y). }
        subst l2. destruct (N.eq_dec pl stop) as [->|M2]; [reflexivity|]. assert (M1 : pl <> start) by (intros ->; apply (P1 c), B2; eauto).
        destruct (P5 pl K M1 M2) as (S & T & M & S1 & S2). destruct (seq_maximal S T M) as (a & b & _ & HT & _). assert (X : drains net pl b) by (apply S2, HT; left; reflexivity). apply B1 in X. destruct X as (? & X); discriminate.
      + assert (N1 : q <> start) by (intros ->; apply (P1 c H)). destruct (P5 q Kq N1 N2) as (S & T & M & S1 & S2). destruct (seq_maximal S T M) as (a & b & HS & HT & Hf).
        assert (a = c) by (apply S1, HS in H; destruct H as [H|[]]; exact H). subst a.
        pose proof Hf as Hf'. apply seq_follows in Hf'. destruct Hf' as (m1 & m2 & Em). assert (X : l2 = b :: m2).
        { pose proof once as ND. rewrite E, El, <- app_assoc in ND. assert (Y : l ++ c :: l2 = m1 ++ c :: b :: m2) by (rewrite <- Em, E, El, <- app_assoc; reflexivity). apply (split_once _ _ _ _ _ ND Y). }
        assert (Fa : feeds net pl c) by (apply B2; eauto). assert (Dc : drains net pl b) by (apply B1; eauto).
        assert (M1 : pl <> start) by (intros ->; apply (P1 c Fa)). assert (M2 : pl <> stop) by (intros ->; apply (P4 b Dc)).
        destruct (P6 _ _ (seq_pair c b Hf)) as (z & _ & _ & _ & _ & Uq). rewrite (Uq q Kq N1 N2), (Uq pl K M1 M2); [reflexivity| |].
        * split; intros d; [rewrite B2, El|rewrite B1, X]; (split; [intros (l' & Y)|intros [<-|[]]; eauto]); left; [apply app_inj_tail in Y; apply Y|congruence].
        * split; intros d; [rewrite S1; apply HS|rewrite S2; apply HT].
  Qed.
  Definition one_token (pl q : N) : nat := if N.eq_dec pl q then 1 else 0.
  Lemma seq_run l2 : forall l1 pl, tr = l1 ++ l2 -> between l1 l2 pl -> (l2 = [] -> pl = stop) -> exists ids, run net (one_token pl) l2 ids (one_token stop).
  Proof.
    induction l2 as [|c l2 IH]; intros l1 pl E B Hstop.
    - exists []. rewrite (Hstop eq_refl). apply run_stop. reflexivity.
    - assert (Hc : In c (map tr_name (n_trans net))). { apply (an_classes _ _ _ _ _ _ A). exists tr. split; [exact some|]. rewrite E. apply in_app_iff. right. left. reflexivity. }
      apply in_map_iff in Hc. destruct Hc as (t & Et & Ht).
      assert (E' : tr = (l1 ++ [c]) ++ l2) by (rewrite <- app_assoc; exact E).
      destruct (between_ex (l1 ++ [c]) l2 E') as (pl' & B' & _ & Hstop'). destruct (IH _ pl' E' B' Hstop') as (ids & R). exists (tr_id t :: ids).
      assert (Uname : forall u, In u (n_trans net) -> tr_name u = c -> u = t).
      { intros u Hu Eu. pose proof (find_name net t (an_names _ _ _ _ _ _ A) Ht) as X1. pose proof (find_name net u (an_names _ _ _ _ _ _ A) Hu) as X2. rewrite Et in X1. rewrite Eu in X2. congruence. }
      assert (I1 : forall q, In q (map arc_place (tr_in t)) <-> q = pl).
      { intros q. split.
        - intros H. assert (D : drains net q c) by (exists t; auto). destruct (between_one l1 (c :: l2) pl q E B (feeds_place log net A q c (or_intror D))) as [X _]. apply (X c l2 eq_refl D).
        - intros ->. destruct B as (B1 & _). destruct (proj2 (B1 c) (ex_intro _ l2 eq_refl)) as (u & Hu & Eu & H). rewrite (Uname u Hu Eu) in H. exact H. }
      assert (I2 : forall q, In q (map arc_place (tr_out t)) <-> q = pl').
      { intros q. split.
        - intros H. assert (D : feeds net q c) by (exists t; auto). destruct (between_one (l1 ++ [c]) l2 pl' q E' B' (feeds_place log net A q c (or_introl D))) as [_ X]. apply (X c l1 eq_refl D).
        - intros ->. destruct B' as (_ & B2 & _). destruct (proj2 (B2 c) (ex_intro _ l1 eq_refl)) as (u & Hu & Eu & H). rewrite (Uname u Hu Eu) in H. exact H. }
      assert (C1 : forall q, needs t q = one_token pl q) by (intros q; apply only_count; [apply (an_in_once _ _ _ _ _ _ A t Ht)|exact I1]).
      assert (C2 : forall q, gives t q = one_token pl' q) by (intros q; apply only_count; [apply (an_out_once _ _ _ _ _ _ A t Ht)|exact I2]).
      rewrite <- Et. eapply run_event; [exact Ht|apply (an_loud _ _ _ _ _ _ A t Ht)| |exact R]. split.
      + intros q. rewrite C1. lia.
      + intros q. rewrite C1, C2. lia.
  Qed.
End Sequence.
Lemma sequence_proof log tr net : (forall t, In t log -> t = tr) -> In tr log -> NoDup tr -> tr <> [] ->
  alpha_net (causal log None) (unrelated log None) (fun c => exists t, In t log /\ In c t) (begins_trace log) (ends_trace log) net ->
  exists start stop ids, n_initial net = Some [(start, 1)] /\ n_final net = Some [(stop, 1)] /\ run net (tokens [(start, 1)]) tr ids (tokens [(stop, 1)]).
Proof.
  intros H1 H2 H3 H4 A. destruct (an_places _ _ _ _ _ _ A) as (start & stop & Hss & Hst & Hen & Hi & Hf & P1 & P2 & P3 & P4 & P5 & P6).
  destruct (between_ex log tr H1 H2 H3 H4 net A start stop P1 P2 P3 P4 P6 [] tr eq_refl) as (pl & B & E1 & E2).
  destruct (seq_run log tr H1 H2 H3 H4 net A start stop P1 P2 P3 P4 P5 P6 tr [] pl eq_refl B E2) as (ids & R). rewrite (E1 eq_refl) in R. exists start, stop, ids. split; [exact Hi|]. split; [exact Hf|].
  assert (T : forall pl q, tokens [(pl, 1)] q = one_token pl q). { intros p q. unfold tokens, one_token. cbn [dget]. destruct (N.eq_dec q p), (N.eq_dec p q); congruence. }
  revert R. generalize (one_token stop) (T stop) (one_token start) (T start). intros M1 HM1 M2 HM2 R. clear - R HM1 HM2.
  assert (G : forall M w ids M', run net M w ids M' -> forall N N', (forall q, N q = M q) -> (forall q, N' q = M' q) -> run net N w ids N').
  { induction 1 as [M M' E|M t M3 w ids0 M4 Ht Hs F R' IH|M t M3 w ids0 M4 Ht Hs F R' IH]; intros K K' E1 E2.
    - apply run_stop. intros q. rewrite E1, E2. apply E.
    - eapply run_event; [exact Ht|exact Hs| |apply IH; [intros q; reflexivity|exact E2]]. destruct F as [F1 F2]. split; intros q; rewrite E1; auto.
    - eapply run_silent; [exact Ht|exact Hs| |apply IH; [intros q; reflexivity|exact E2]]. destruct F as [F1 F2]. split; intros q; rewrite E1; auto. }
  eapply G; [exact R|exact HM2|exact HM1].
Qed.

(** ** Any number of steps *)
Lemma maximize_more {T} (eqb : T -> T -> bool) merger ord fuel : forall k vec r, maximize eqb merger ord fuel k vec = Ok r -> forall more, maximize eqb merger ord (fuel + more) k vec = Ok r.
Proof.
  induction fuel as [|fuel IH]; intros k vec r H more; [discriminate|]. cbn [maximize Nat.add] in *. destruct (max_round eqb merger (ord k T vec)); [apply IH, H|exact H].
Qed.
Lemma maximize_err {T} (eqb : T -> T -> bool) merger ord fuel : forall k vec e, maximize eqb merger ord fuel k vec = Err e -> e = Diverges.
Proof. induction fuel as [|fuel IH]; intros k vec e H; cbn [maximize] in H; [congruence|]. destruct (max_round eqb merger (ord k T vec)); [eapply IH, H|discriminate]. Qed.
Lemma alpha_any_fuel ord : any_order ord -> forall log next fuel r, discover_alpha_part ord fuel log next = r ->
  r = Err Diverges \/ exists net next' table, r = Ok ((net, next'), table) /\
    alpha_net (causal log None) (unrelated log None) (fun c => exists t, In t log /\ In c t) (begins_trace log) (ends_trace log) net.
Proof.
  intros O log next fuel r E. destruct (alpha_net_proof ord O log next) as (fuel0 & net & next' & table & H & A & _).
  specialize (H (fuel + fuel0) ltac:(lia)). unfold discover_alpha_part, discover_petri_net_alpha, maximize_sets in *.
  destruct (maximize as_eqb _ ord fuel 100 _) as [sets|e] eqn:Em.
  - rewrite (maximize_more _ _ _ _ _ _ _ Em fuel0) in H. cbn [bind] in *. right. exists net, next', table. split; [congruence|exact A].
  - left. rewrite <- E. cbn [bind]. rewrite (maximize_err _ _ _ _ _ _ _ Em). reflexivity.
Qed.
Lemma alpha_result ord : any_order ord -> forall log next fuel net next' table, discover_alpha_part ord fuel log next = Ok ((net, next'), table) ->
  alpha_net (causal log None) (unrelated log None) (fun c => exists t, In t log /\ In c t) (begins_trace log) (ends_trace log) net /\ True.
Proof.
  intros O log next fuel net next' table E. split; [|exact I]. destruct (alpha_any_fuel ord O log next fuel _ E) as [H|(n & n' & t & H & A)]; [discriminate|]. injection H as -> _ _. exact A.
Qed.
