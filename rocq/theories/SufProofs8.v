(** The suffix tree of a word and of the traces of a log. *)
From Coq Require Import Permutation Sorting.Sorted.
From Verif Require Import Py PyFacts ReplayModel RInfoModel RInfoSpec SufModel SufSpec SufProofs1 SufProofs2 SufProofs3 SufProofs4 SufProofs5 SufProofs6 SufProofs7.

Lemma occurs_prefix {A} (T b : list A) s : occurs T b s <-> s <= length T /\ prefix b (skipn s T).
Proof.
  split.
  - intros (l & r & -> & <-). rewrite app_length. split; [ lia | ]. rewrite skipn_app, skipn_all, Nat.sub_diag. cbn. now exists r.
  - intros (H & r & E). exists (firstn s T), r. rewrite <- E, firstn_skipn. split; [ easy | ]. rewrite firstn_length. lia.
Qed.
Lemma sub_skipn get n s : s <= n -> sub get s n = skipn s (sub get 0 n).
Proof. intros H. rewrite (sub_app get 0 s n) by lia. rewrite skipn_app, sub_length, skipn_all2 by (rewrite sub_length; lia). replace (s - (s - 0)) with 0 by lia. reflexivity. Qed.
Lemma sub_firstn get n s e : s <= e -> e <= n -> sub get s e = firstn (e - s) (skipn s (sub get 0 n)).
Proof.
  intros H1 H2. rewrite <- sub_skipn by lia. rewrite (sub_app get s e n) by lia. rewrite firstn_app, sub_length, firstn_all2 by (rewrite sub_length; lia).
  rewrite Nat.sub_diag. cbn. now rewrite app_nil_r.
Qed.

(** Any text. *)
Section Any.
  Variable sl : slice.
  Variable T : list (option N).
  Hypothesis F : fair sl.
  Hypothesis HT : sub (sl_get sl) 0 (sl_len sl) = T.
  Hypothesis HN : T <> [].
  Hypothesis HE : exists T', T = T' ++ [None].
  Variable ord : nat -> forall A : Type, list A -> list A.
  Hypothesis O : any_order ord.

  Lemma text_length : length T = sl_len sl.
  Proof. rewrite <- HT, sub_length. lia. Qed.
  Lemma text_starts k b s : k <= sl_len sl -> starts sl k b s <-> s < k /\ occurs T b s.
  Proof.
    intros Hk. unfold starts. rewrite occurs_prefix, <- HT, sub_length. split; intros (H1 & H2); (split; [ easy | ]).
    - rewrite <- sub_skipn by lia. split; [ lia | easy ].
    - rewrite sub_skipn by lia. easy.
  Qed.
  Lemma text_trie k b : k <= sl_len sl -> trie sl k b <-> exists s, s < k /\ occurs T b s.
  Proof. intros Hk. unfold trie. split; intros (s & H); exists s; now apply (text_starts k b s Hk). Qed.
  Lemma text_end : sl_len sl = 0 \/ sl_get sl (sl_len sl - 1) = None.
  Proof.
    right. destruct HE as (T' & E). assert (L : sl_len sl = S (length T')) by (rewrite <- text_length, E, app_length; cbn; lia).
    rewrite <- HT, L in E. rewrite sub_snoc in E by lia. apply app_inj_tail in E. rewrite L. replace (S (length T') - 1) with (length T') by lia. apply E.
  Qed.

  Lemma text_tree : exists nodes path k, build_tree sl = Ok nodes /\ wf sl k nodes path [] [] /\ 0 < k /\ tail_at T k.
  Proof.
    destruct (build_proof sl F) as (nodes & path & k & B1 & B2 & B3). pose proof (w_bound _ _ _ _ _ _ B2) as HB. exists nodes, path, k.
    assert (K : 0 < k).
    { destruct (Nat.eq_dec k 0) as [->|]; [ exfalso | lia ]. destruct B3 as [B3|(s & Hs & _)]; [ | lia ]. apply HN. rewrite <- HT, <- B3. reflexivity. }
    conj; auto. unfold tail_at. rewrite text_length. conj; auto.
    - destruct B3 as [B3|B3]; [ now left | right ]. apply (text_trie k _ HB) in B3. rewrite <- HT, <- sub_skipn by lia. rewrite HT. exact B3.
    - intros j Hj s Hs Ho. destruct (w_suffix _ _ _ _ _ _ B2 j Hj) as (v & nd & V1 & V2 & V3 & V4).
      pose proof (proj2 (w_leaf _ _ _ _ _ _ B2 v nd V2 V1) V3) as V5. destruct (leaf_under _ _ _ _ B2 K v nd V1 V2 V5) as (_ & _ & L).
      assert (U : forall u, u < k -> prefix (sub (sl_get sl) j (sl_len sl)) (sub (sl_get sl) u (sl_len sl)) -> u = sl_len sl - length (path v)).
      { intros u Hu HP. apply L. split; [ easy | ]. now rewrite V4. }
      pose proof (U j Hj (prefix_refl _)). enough (s = sl_len sl - length (path v)) by lia. apply U; [ lia | ].
      rewrite <- HT, <- sub_skipn in Ho by lia. rewrite HT in Ho. assert (Hsk : s < k) by lia. exact (proj2 (proj2 (text_starts k _ s HB) (Logic.conj Hsk Ho))).
  Qed.

  Lemma text_patterns p : exists k, tail_at T k /\ exists r, bind (build_tree sl) (fun nodes => find_patterns sl ord nodes p) = Ok r /\
    match r with
    | Some l => l <> [] /\ StronglySorted pair_le l /\ NoDup l /\ forall x, In x l <-> (fst x < k /\ occurs T (map Some p) (fst x)) /\ snd x = fst x + length p
    | None => forall i, i < k -> ~ occurs T (map Some p) i
    end.
  Proof.
    destruct text_tree as (nodes & path & k & B1 & B2 & K & B3). pose proof (w_bound _ _ _ _ _ _ B2) as HB. exists k. split; [ easy | ]. rewrite B1. cbn [bind].
    destruct (find_patterns_ok sl ord O k nodes path B2 K p) as [(P1 & l & P2 & P3 & P4 & P5)|(P1 & P2)].
    - exists (Some l). split; [ exact P2 | ]. assert (Q : forall x, In x l <-> (fst x < k /\ occurs T (map Some p) (fst x)) /\ snd x = fst x + length p).
      { intros x. rewrite P5. pose proof (text_starts k (map Some p) (fst x) HB) as TS. unfold starts in TS. tauto. }
      conj; auto. intros ->. apply (text_trie k _ HB) in P1. destruct P1 as (s & S1 & S2). now apply (Q (s, s + length p)).
    - exists None. split; [ exact P2 | ]. intros i Hi Ho. apply P1. apply (text_trie k _ HB). eauto.
  Qed.

  Variable ty : repeat_type.
  Hypothesis R : readable sl.
  Lemma text_repeats : exists k, tail_at T k /\ exists l, slice_repeats ord ty sl = Ok l /\ StronglySorted pair_le l /\ NoDup l /\
    (forall r, In r l -> exists a, a <> [] /\ fst r < k /\ occurs T (map Some a) (fst r) /\ snd r = fst r + length a /\ snd r < length T /\
       reported (fun s => s < k /\ occurs T (map Some a) s) (lf sl) (fun s => sl_get sl (s + length a)) ty) /\
    (forall a, a <> [] -> reported (fun s => s < k /\ occurs T (map Some a) s) (lf sl) (fun s => sl_get sl (s + length a)) ty ->
       exists r, In r l /\ fst r < k /\ occurs T (map Some a) (fst r) /\ snd r = fst r + length a) /\
    (forall a r r', In r l -> In r' l -> occurs T (map Some a) (fst r) -> snd r = fst r + length a -> occurs T (map Some a) (fst r') -> snd r' = fst r' + length a -> r = r').
  Proof.
    destruct text_tree as (nodes & path & k & B1 & B2 & K & B3). pose proof (w_bound _ _ _ _ _ _ B2) as HB. exists k. split; [ easy | ].
    unfold slice_repeats. rewrite B1. cbn [bind]. destruct (tree_repeats_ok sl ord O k nodes path B2 K ty R text_end) as (l & L1 & L2 & L3 & L4 & L5 & L6).
    assert (X : forall a, reported (starts sl k (map Some a)) (lf sl) (after_in sl (map Some a)) ty <->
      reported (fun s => s < k /\ occurs T (map Some a) s) (lf sl) (fun s => sl_get sl (s + length a)) ty).
    { intros a. split; apply reported_ext; auto; try (intros s; now rewrite (text_starts k _ s HB)); intros s _; unfold after_in; now rewrite map_length. }
    exists l. conj; auto.
    - intros r Hr. destruct (L4 r Hr) as (a & A1 & A2 & A3 & A4 & A5). exists a. apply (text_starts k _ _ HB) in A2. apply X in A5. rewrite text_length. conj; auto; apply A2.
    - intros a Ha HR. apply X in HR. destruct (L5 a Ha HR) as (r & R1 & R2 & R3). exists r. apply (text_starts k _ _ HB) in R2. conj; auto; apply R2.
    - intros a r r' Hr Hr' O1 S1 O2 S2. apply L6; auto. rewrite S1, S2.
      assert (G : forall r, In r l -> occurs T (map Some a) (fst r) -> sub (sl_get sl) (fst r) (fst r + length a) = map Some a).
      { intros r1 H1 H2. destruct (L4 r1 H1) as (_ & _ & (A2 & _) & _). assert (HS : starts sl k (map Some a) (fst r1)) by (apply (text_starts k _ _ HB); auto).
        rewrite <- (map_length Some a). symmetry. apply (prefix_sub _ _ _ _ (proj2 HS)). }
      now rewrite (G r Hr O1), (G r' Hr' O2).
  Qed.
End Any.

(** A single word. *)
Section Single.
  Variable w : list N.
  Notation sl := (single_slice w).
  Notation T := (map Some w ++ [None]).

  Lemma single_text : sub (sl_get sl) 0 (sl_len sl) = T.
  Proof.
    cbn [sl_get sl_len single_slice]. rewrite Nat.add_1_r, sub_snoc by lia. f_equal.
    - unfold sub. rewrite Nat.sub_0_r. induction w as [|x u IH]; [ easy | ]. cbn [length seq map]. cbn [nth_error]. f_equal. rewrite <- seq_shift, map_map. exact IH.
    - f_equal. now apply nth_error_None.
  Qed.
  Lemma single_fair : fair sl.
  Proof.
    intros i j Hi Hj Hn. cbn [sl_equals sl_get sl_len single_slice] in *.
    destruct (length w <=? i) eqn:E1; cbn [orb].
    - apply Nat.leb_le in E1. symmetry. apply oeqb_neq. rewrite (proj2 (nth_error_None w i)) by easy. intros E. symmetry in E. apply nth_error_None in E. lia.
    - destruct (length w <=? j) eqn:E2; [ | easy ]. apply Nat.leb_le in E2. apply Nat.leb_gt in E1. symmetry. apply oeqb_neq.
      rewrite (proj2 (nth_error_None w j)) by easy. intros E. apply nth_error_None in E. lia.
  Qed.
  Lemma single_readable : readable sl.
  Proof.
    intros s e H1 H2. cbn [sl_len single_slice] in H2. cbn [sl_sub single_slice]. unfold range_of.
    rewrite (proj2 (Nat.leb_le s e)), (proj2 (Nat.leb_le e (length w))) by lia. cbn [andb bind]. eexists. split; [ reflexivity | ].
    rewrite (sub_firstn _ (sl_len sl)) by (cbn; lia). rewrite single_text. rewrite <- firstn_map, <- skipn_map, skipn_app, firstn_app.
    rewrite skipn_length, map_length. replace (e - s - (length w - s)) with 0 by lia. cbn. now rewrite app_nil_r.
  Qed.
  Lemma single_occurs a s : s <= length w -> occurs T (map Some a) s <-> occurs w a s.
  Proof.
    intros Hs. split.
    - intros (l & r & E & L). destruct (exists_last (l := r)) as (r' & x & ->).
      { intros ->. rewrite app_nil_r in E. destruct (exists_last (l := a)) as (a' & y & Ea).
        - intros ->. cbn in E. rewrite app_nil_r in E. apply (f_equal (@length _)) in E. rewrite app_length, map_length in E. cbn in E. lia.
        - subst a. rewrite map_app, app_assoc in E. cbn in E. apply app_inj_tail in E. easy. }
      rewrite !app_assoc in E. apply app_inj_tail in E. destruct E as (E & _). rewrite <- app_assoc in E. symmetry in E.
      apply map_eq_app in E || (symmetry in E; apply map_eq_app in E). destruct E as (l0 & l1 & E1 & E2 & E3). apply map_eq_app in E3. destruct E3 as (a0 & r0 & E4 & E5 & E6).
      assert (a0 = a). { clear -E5. revert a E5. induction a0 as [|x a0 IH]; intros [|y a] E; try easy. cbn in E. injection E as -> E. f_equal. auto. }
      exists l0, r0. subst. now rewrite map_length.
    - intros (l & r & -> & <-). exists (map Some l), (map Some r ++ [None]). rewrite !map_app, <- !app_assoc, map_length. easy.
  Qed.
  Lemma single_tail k : tail_at T k -> k = length w + 1.
  Proof.
    intros (H1 & H2 & _). rewrite app_length, map_length in *. cbn in *. destruct H2 as [?|(s & Hs & Ho)]; [ easy | ].
    destruct (Nat.eq_dec k (length w + 1)); [ easy | exfalso ]. apply occurs_prefix in Ho. destruct Ho as (_ & HP).
    assert (E : nth_error (skipn s T) (length w - k) = Some None).
    { rewrite (prefix_nth _ _ _ HP); [ | rewrite skipn_length, app_length, map_length; cbn; lia ].
      rewrite skipn_app, map_length, nth_error_app2; rewrite skipn_length, map_length; [ | lia ]. replace (k - length w) with 0 by lia. replace (length w - k - (length w - k)) with 0 by lia. reflexivity. }
    rewrite skipn_app, nth_error_app1 in E; [ | rewrite skipn_length, map_length; lia ].
    apply nth_error_In in E. rewrite skipn_map in E. apply in_map_iff in E. now destruct E as (? & ? & _).
  Qed.
  Lemma single_before s : lf sl s = before w s.
  Proof. unfold lf, before. destruct s; [ easy | ]. cbn [Nat.eqb]. replace (S s - 1) with s by lia. reflexivity. Qed.

  Variable ord : nat -> forall A : Type, list A -> list A.
  Hypothesis O : any_order ord.
  Lemma occurs_bound {A} (u a : list A) s : occurs u a s -> s + length a <= length u.
  Proof. intros (l & r & -> & <-). rewrite !app_length. lia. Qed.
  Lemma text_nonempty : T <> [].
  Proof. now destruct w. Qed.

  Lemma single_patterns_proof p : exists r, bind (build_tree sl) (fun nodes => find_patterns sl ord nodes p) = Ok r /\
    match r with
    | Some l => l <> [] /\ StronglySorted pair_le l /\ NoDup l /\ forall x, In x l <-> occurs w p (fst x) /\ snd x = fst x + length p
    | None => forall i, ~ occurs w p i
    end.
  Proof.
    destruct (text_patterns sl T single_fair single_text text_nonempty ord O p) as (k & K & r & R1 & R2). apply single_tail in K. subst k. exists r. split; [ exact R1 | ].
    destruct r as [l|].
    - destruct R2 as (A1 & A2 & A3 & A4). conj; auto. intros x. rewrite A4. split; intros (H & E); (split; [ | easy ]).
      + apply single_occurs; [ lia | easy ].
      + pose proof (occurs_bound _ _ _ H). split; [ lia | ]. apply single_occurs; [ lia | easy ].
    - intros i Ho. pose proof (occurs_bound _ _ _ Ho). apply (R2 i); [ lia | ]. apply single_occurs; [ lia | easy ].
  Qed.
  Lemma single_repeats_proof ty : exists l, slice_repeats ord ty sl = Ok l /\ StronglySorted pair_le l /\ NoDup l /\
    (forall r, In r l -> exists a, a <> [] /\ occurs w a (fst r) /\ snd r = fst r + length a /\ reported (occurs w a) (before w) (after w a) ty) /\
    (forall a, a <> [] -> reported (occurs w a) (before w) (after w a) ty -> exists r, In r l /\ occurs w a (fst r) /\ snd r = fst r + length a) /\
    (forall a r r', In r l -> In r' l -> occurs w a (fst r) -> snd r = fst r + length a -> occurs w a (fst r') -> snd r' = fst r' + length a -> r = r').
  Proof.
    destruct (text_repeats sl T single_fair single_text text_nonempty ltac:(eauto) ord O ty single_readable) as (k & K & l & L1 & L2 & L3 & L4 & L5 & L6).
    apply single_tail in K. subst k.
    assert (Oc : forall a s, (s < length w + 1 /\ occurs T (map Some a) s) <-> occurs w a s).
    { intros a s. split.
      - intros (H1 & H2). apply single_occurs; [ lia | easy ].
      - intros H. pose proof (occurs_bound _ _ _ H). split; [ lia | ]. apply single_occurs; [ lia | easy ]. }
    assert (X : forall a, reported (fun s => s < length w + 1 /\ occurs T (map Some a) s) (lf sl) (fun s => sl_get sl (s + length a)) ty <->
      reported (occurs w a) (before w) (after w a) ty).
    { intros a. split; apply reported_ext; intros s; try (intros _; first [ reflexivity | apply single_before | symmetry; apply single_before ]); [ apply Oc | symmetry; apply Oc ]. }
    exists l. conj; auto.
    - intros r Hr. destruct (L4 r Hr) as (a & A1 & A2 & A3 & A4 & A5 & A6). exists a. conj; auto; [ now apply Oc | now apply X ].
    - intros a Ha HR. apply X in HR. destruct (L5 a Ha HR) as (r & R1 & R2 & R3 & R4). exists r. conj; auto. now apply Oc.
    - intros a r r' Hr Hr' O1 S1 O2 S2. apply Oc in O1, O2. apply (L6 a); auto; [ apply O1 | apply O2 ].
  Qed.
End Single.
