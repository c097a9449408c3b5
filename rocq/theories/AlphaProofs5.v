(** Proofs about the alpha algorithm: the whole discovery. *)
From Coq Require Import Permutation Sorted.
From Verif Require Import Py PyFacts InfoModel InfoSpec InfoProofs HashModel EqProofs ReplayModel ReplaySpec ReplayProofs HMutProofs RInfoModel RInfoSpec RInfoProofs AlphaModel AlphaSpec AlphaProofs AlphaProofs2 AlphaProofs3 AlphaProofs4.

Section Discovery.
  Variable ord : nat -> forall A : Type, list A -> list A.
  Hypothesis O : any_order ord.
  Variable p : aprovider.
  Let info := ap_info p.
  Let C := fun a b => ap_causal p a b = true.
  Let U := fun a b => ap_unrelated p a b = true.
  Hypothesis CU : forall a b, C a b -> ~ U a b.
  Hypothesis C_classes : forall a b, C a b -> In a (dkeys (ri_classes info)) /\ In b (dkeys (ri_classes info)).
  Hypothesis C_keys : forall a b, C a b -> r_followed (ri_dfg info) a <> None.
  Hypothesis classes_once : NoDup (dkeys (ri_classes info)).
  Hypothesis starts_once : NoDup (ri_starts info).
  Hypothesis ends_once : NoDup (ri_ends info).
  Hypothesis starts_in : incl (ri_starts info) (dkeys (ri_classes info)).
  Hypothesis ends_in : incl (ri_ends info) (dkeys (ri_classes info)).

  Lemma classes_In k c : In c (r_all_event_classes ord k info) <-> In c (dkeys (ri_classes info)).
  Proof. apply ord_In, O. Qed.
  Lemma discover_proof next : exists fuel0 sets net next' table start stop ids,
    (forall fuel, fuel0 <= fuel -> discover_petri_net_alpha ord fuel p next = Ok ((net, next'), table)) /\
    NoDup sets /\ (forall x, In x sets <-> tidy x /\ maximal C U (as_left x) (as_right x)) /\
    (forall x s, In x sets -> incl (sd s x) (r_all_event_classes ord 8 info)) /\
    described sets (r_all_event_classes ord 8 info) (ord 9 _ (ri_starts info)) (ord 10 _ (ri_ends info)) net next' table start stop ids.
  Proof.
    assert (Hk : forall k a b, C a b -> In a (r_all_event_classes ord k (ap_info p)) /\ In b (r_all_event_classes ord k (ap_info p))) by (intros k a b H; fold info; rewrite !classes_In; apply C_classes, H).
    destruct (sets_proof ord O p (dkeys (ri_classes info)) CU C_classes C_keys Hk) as (fuel0 & r & E & ND & M). fold C in M. fold U in M. set (sets := filter_out_non_maximal_sets ord r) in *.
    assert (Hin : forall x s, In x sets -> incl (sd s x) (r_all_event_classes ord 8 info)).
    { intros x s Hx c Hc. apply classes_In. apply M in Hx. destruct Hx as [T Hx]. apply (good_sd p (dkeys (ri_classes info)) C_classes x s); [|exact Hc]. split; [exact T|apply Hx]. }
    destruct (create_proof ord info sets next) as (net & next' & table & start & stop & ids & Ec & D).
    - eapply Permutation_NoDup; [symmetry; apply O|exact classes_once].
    - eapply Permutation_NoDup; [symmetry; apply O|exact starts_once].
    - eapply Permutation_NoDup; [symmetry; apply O|exact ends_once].
    - intros c Hc. apply (ord_In ord O) in Hc. apply classes_In, starts_in, Hc.
    - intros c Hc. apply (ord_In ord O) in Hc. apply classes_In, ends_in, Hc.
    - intros x s Hx. split; [|apply Hin, Hx]. apply bsorted_NoDup. apply M in Hx. apply Hx.
    - exists fuel0, sets, net, next', table, start, stop, ids. split.
      + intros fuel Hf. unfold discover_petri_net_alpha. rewrite (E fuel Hf). cbn [bind]. exact Ec.
      + auto.
  Qed.
End Discovery.

(** Relations which say the same. *)
Lemma fits_iff (C C' U U' : pystr -> pystr -> Prop) : (forall a b, C a b <-> C' a b) -> (forall a b, U a b <-> U' a b) -> forall A B, fits C U A B <-> fits C' U' A B.
Proof.
  intros H1 H2 A B. unfold fits. split; intros (N1 & N2 & F1 & F2 & F3); (split; [exact N1|]; split; [exact N2|]; split; [|split]); intros a b Ha Hb;
    [apply H1, F1|apply H2, F2|apply H2, F3|apply H1, F1|apply H2, F2|apply H2, F3]; assumption.
Qed.
Lemma maximal_iff2 (C C' U U' : pystr -> pystr -> Prop) : (forall a b, C a b <-> C' a b) -> (forall a b, U a b <-> U' a b) -> forall A B, maximal C U A B <-> maximal C' U' A B.
Proof.
  intros H1 H2 A B. unfold maximal. rewrite (fits_iff C C' U U' H1 H2). split; intros [F M]; (split; [exact F|]); intros A' B' F'; apply M; apply (fits_iff C C' U U' H1 H2); exact F'.
Qed.
Lemma alpha_net_iff (C C' U U' : pystr -> pystr -> Prop) (c c' s s' e e' : pystr -> Prop) net :
  (forall a b, C a b <-> C' a b) -> (forall a b, U a b <-> U' a b) -> (forall x, c x <-> c' x) -> (forall x, s x <-> s' x) -> (forall x, e x <-> e' x) ->
  alpha_net C U c s e net -> alpha_net C' U' c' s' e' net.
Proof.
  intros H1 H2 H3 H4 H5 [A1 A2 A3 A4 A5 A6 A7 (start & stop & P)]. split; try assumption.
  - intros x. rewrite A3. apply H3.
  - destruct P as (Q1 & Q2 & Q3 & Q4 & Q5 & Q6 & Q7 & Q8 & Q9 & Q10 & Q11). exists start, stop. do 6 (split; [assumption|]).
    split; [intros x; rewrite Q7; apply H4|]. split; [intros x; rewrite Q8; apply H5|]. split; [assumption|]. split.
    + intros pl K1 K2 K3. destruct (Q10 pl K1 K2 K3) as (A & B & M & S). exists A, B. split; [apply (maximal_iff2 C C' U U' H1 H2), M|exact S].
    + intros A B M. apply Q11. apply (maximal_iff2 C C' U U' H1 H2), M.
Qed.

Lemma occurrences_In log ign c : In c (occurrences log ign) <-> exists t, In t log /\ In c (kept ign t).
Proof. unfold occurrences. rewrite in_flat_map. reflexivity. Qed.
Lemma kept_In ign t c : In c (kept ign t) <-> In c t /\ match ign with Some l => ~ In c l | None => True end.
Proof.
  unfold kept. rewrite filter_In. destruct ign as [l|]; [|tauto]. destruct (in_dec str_eq_dec c l); split; intros [A B]; split; auto; try discriminate; contradiction.
Qed.
Lemma occurrences_all log c : In c (occurrences log None) <-> exists t, In t log /\ In c t.
Proof. rewrite occurrences_In. split; intros (t & Ht & H); exists t; (split; [exact Ht|]); apply (kept_In None t c) in H || apply (kept_In None t c); tauto. Qed.
Lemma steps_key ord log ign a b : any_order ord -> In (a, b) (steps log ign false) -> r_followed (ri_dfg (r_create_from ord log false ign)) a <> None.
Proof.
  intros O H E. destruct (followers_proof ord O log false ign) as (F & _). specialize (F a b). cbn zeta in F. rewrite E in F. unfold positive in F.
  destruct (count_occ pair_eq_dec (steps log ign false) (a, b)) eqn:Ec; [|discriminate]. apply (count_occ_In pair_eq_dec) in H. lia.
Qed.
Lemma begins_occurs log c : begins_trace log c -> In c (occurrences log None).
Proof. intros [t H]. apply occurrences_all. exists (c :: t). split; [exact H|left; reflexivity]. Qed.
Lemma ends_occurs log c : ends_trace log c -> In c (occurrences log None).
Proof. intros [t H]. apply occurrences_all. exists (t ++ [c]). split; [exact H|]. apply in_app_iff. right. left. reflexivity. Qed.

Lemma alpha_net_proof ord : any_order ord -> forall log next, exists fuel0 net next' table,
  (forall fuel, fuel0 <= fuel -> discover_alpha_part ord fuel log next = Ok ((net, next'), table)) /\
  alpha_net (causal log None) (unrelated log None) (fun c => exists t, In t log /\ In c t) (begins_trace log) (ends_trace log) net /\
  (forall i, In i (all_ids net) -> (i < next')%N) /\
  (forall place x, In (place, x) table <-> In (place, as_string x) (n_places net) /\ tidy x /\ maximal (causal log None) (unrelated log None) (as_left x) (as_right x) /\ stands_for net place (as_left x) (as_right x)).
Proof.
  intros O log next. set (info := r_create_from ord log false None).
  destruct (counts_proof ord O log false None) as (_ & Hcl & _ & Hd & _). fold info in Hcl, Hd. destruct (starts_proof ord log false None) as (S1 & S2 & S3 & S4). fold info in S1, S2, S3, S4.
  assert (Hc : forall a b, ap_causal (default_provider info) a b = true <-> causal log None a b).
  { intros a b. cbn [default_provider ap_causal]. unfold causal, follows. rewrite andb_true_iff, negb_true_iff, <- !Hd. destruct (r_directly_follows (ri_dfg info) b a); intuition congruence. }
  assert (Hu : forall a b, ap_unrelated (default_provider info) a b = true <-> unrelated log None a b).
  { intros a b. cbn [default_provider ap_unrelated]. unfold unrelated, follows. rewrite andb_true_iff, !negb_true_iff, <- !Hd. destruct (r_directly_follows (ri_dfg info) a b), (r_directly_follows (ri_dfg info) b a); intuition congruence. }
  assert (Hcls : forall c, In c (dkeys (ri_classes info)) <-> In c (occurrences log None)).
  { intros c. rewrite <- (classes_In ord O (default_provider info) 0 c). apply Hcl. }
  destruct (discover_proof ord O (default_provider info)) with (next := next) as (fuel0 & sets & net & next' & table & start & stop & ids & E & ND & M & Hin & D); cbn [default_provider ap_info].
  - intros a b H1 H2. apply Hc in H1. apply Hu in H2. destruct H1, H2. contradiction.
  - intros a b H. rewrite !Hcls. apply Hc in H. apply steps_classes. apply H.
  - intros a b H. apply Hc in H. eapply steps_key; [exact O|apply H].
  - destruct (Hcl 0) as [X _]. eapply Permutation_NoDup; [apply O|exact X].
  - exact S1.
  - exact S2.
  - intros c H. apply Hcls, begins_occurs, S3, H.
  - intros c H. apply Hcls, ends_occurs, S4, H.
  - exists fuel0, net, next', table. split; [exact E|].
    assert (Is : incl (ord 9 pystr (ri_starts info)) (r_all_event_classes ord 8 info)).
    { intros c H. apply (ord_In ord O) in H. apply Hcl, begins_occurs, S3, H. }
    assert (Ie : incl (ord 10 pystr (ri_ends info)) (r_all_event_classes ord 8 info)).
    { intros c H. apply (ord_In ord O) in H. apply Hcl, ends_occurs, S4, H. }
    pose proof (described_alpha_net _ _ _ _ _ _ _ _ _ _ _ _ D ND M Hin Is Ie) as AN. split; [|split].
    + eapply alpha_net_iff; [exact Hc|exact Hu| | | |exact AN].
      * intros c. cbn [default_provider ap_info]. rewrite (proj2 (Hcl 8)). apply occurrences_all.
      * intros c. cbn [default_provider ap_info]. rewrite (ord_In ord O). apply S3.
      * intros c. cbn [default_provider ap_info]. rewrite (ord_In ord O). apply S4.
    + apply (w_fresh _ _ _ (de_wired _ _ _ _ _ _ _ _ _ _ D)).
    + intros place x. rewrite <- (maximal_iff2 _ _ _ _ Hc Hu). split.
      * intros H. split; [rewrite (de_places _ _ _ _ _ _ _ _ _ _ D); apply in_app_iff; left; apply (in_map (fun kv => (fst kv, as_string (snd kv)))) in H; exact H|].
        assert (Hx : In x sets) by (rewrite <- (de_sets _ _ _ _ _ _ _ _ _ _ D); apply (in_map snd) in H; exact H). apply M in Hx. split; [apply Hx|]. split; [apply Hx|].
        eapply de_stands; [exact D|exact Hin|exact Is|exact Ie|exact H].
      * intros (H1 & H2 & H3 & H4). rewrite (de_places _ _ _ _ _ _ _ _ _ _ D) in H1. apply in_app_iff in H1. destruct H1 as [H1|[H1|[H1|[]]]].
        -- apply in_map_iff in H1. destruct H1 as ([q y] & Ey & Hy). cbn [fst snd] in Ey. assert (q = place) by congruence. subst q. clear Ey.
           assert (Hy' : In y sets) by (rewrite <- (de_sets _ _ _ _ _ _ _ _ _ _ D); apply (in_map snd) in Hy; exact Hy).
           destruct (de_stands _ _ _ _ _ _ _ _ _ _ D Hin Is Ie place y Hy) as [T1 T2]. destruct H4 as [T3 T4].
           replace x with y; [exact Hy|]. apply aset_ext; [apply M, Hy'|exact H2|]. intros [] c; cbn [sd]; [rewrite <- T1, T3|rewrite <- T2, T4]; reflexivity.
        -- exfalso. injection H1 as _ H1. revert H1. unfold as_string. cbn. discriminate.
        -- exfalso. injection H1 as _ H1. revert H1. unfold as_string. cbn. discriminate.
Qed.
