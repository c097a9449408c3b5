(** Theorems about the suffix tree of the backend and the repeats found with it. *)
From Coq Require Import Permutation Sorting.Sorted.
From Verif Require Import Py PyFacts ReplayModel RInfoModel RInfoSpec SufModel SufSpec SufProofs1 SufProofs2 SufProofs3 SufProofs4 SufProofs5 SufProofs6 SufProofs7 SufProofs8 SufProofs9 SufProofs10 SufProofs11.

(** The order of the entries as they were put in, and the other way round. *)
Definition order_in : nat -> forall A : Type, list A -> list A := fun _ _ l => l.
Definition order_back : nat -> forall A : Type, list A -> list A := fun _ _ l => rev l.
Lemma order_in_any : any_order order_in. Proof. intros k A l. reflexivity. Qed.
Lemma order_back_any : any_order order_back. Proof. intros k A l. unfold order_back. symmetry. apply Permutation_rev. Qed.

(** * C65: the suffix tree finds a word where it is *)

(** Searching the tree of a word finds all positions of the pattern and nothing else, in order and each once; it never panics
    and always ends, also for the empty word and the empty pattern. *)
Theorem C65_finds_all_positions : forall ord w p, any_order ord ->
  exists r, bind (build_tree (single_slice w)) (fun nodes => find_patterns (single_slice w) ord nodes p) = Ok r /\
    match r with
    | Some l => l <> [] /\ StronglySorted pair_le l /\ NoDup l /\ forall x, In x l <-> occurs w p (fst x) /\ snd x = fst x + length p
    | None => forall i, ~ occurs w p i
    end.
Proof. intros ord w p O. exact (single_patterns_proof w ord O p). Qed.
Print Assumptions C65_finds_all_positions.
Example C65_case : bind (build_tree (single_slice [1; 2; 1; 2; 1; 3]%N)) (fun nodes => find_patterns (single_slice [1; 2; 1; 2; 1; 3]%N) order_back nodes [1; 2; 1]%N)
  = Ok (Some [(0, 3); (2, 5)]).
Proof. reflexivity. Qed.

(** In the tree of the traces of a log a word is found when it is in a trace; the positions are those before the tail of the
    merged text, which is lost since it begins earlier too. *)
Theorem C65_finds_words_of_traces : forall ord log p, any_order ord -> p <> [] ->
  exists k r, tail_at (merged log) k /\
    bind (build_tree (multi_slice log)) (fun nodes => find_patterns (multi_slice log) ord nodes p) = Ok r /\
    match r with
    | Some l => StronglySorted pair_le l /\ NoDup l /\ (exists t i, t < length log /\ occurs (nth t log []) p i) /\
                forall x, In x l <-> snd x = fst x + length p /\ exists t i, t < length log /\ occurs (nth t log []) p i /\ fst x = offset log t + i /\ fst x < k
    | None => forall w i, In w log -> ~ occurs w p i
    end.
Proof. intros ord log p O Hp. exact (merged_patterns_proof ord O log p Hp). Qed.
Print Assumptions C65_finds_words_of_traces.
(** There is one such tail only. *)
Theorem C65_tail_is_unique : forall (T : list (option N)) k k', tail_at T k -> tail_at T k' -> k = k'.
Proof. intros T k k'. apply tail_unique. Qed.
Print Assumptions C65_tail_is_unique.
Example C65_traces_case : bind (build_tree (multi_slice [[1; 2]; [3; 1; 2]; [2; 4]]%N)) (fun nodes => find_patterns (multi_slice [[1; 2]; [3; 1; 2]; [2; 4]]%N) order_in nodes [1; 2]%N)
  = Ok (Some [(0, 2); (4, 6)]) /\ offset [[1; 2]; [3; 1; 2]; [2; 4]]%N 1 = 3.
Proof. split; reflexivity. Qed.

(** Not all positions: a trace which is there again at the end is not found a second time. *)
Theorem C65_position_in_last_trace_refuted : exists log p t i, t < length log /\ occurs (nth t log []) p i /\
  forall ord, any_order ord -> exists l, bind (build_tree (multi_slice log)) (fun nodes => find_patterns (multi_slice log) ord nodes p) = Ok (Some l) /\ ~ In (offset log t + i, offset log t + i + length p) l.
Proof.
  exists [[1; 2]; [1; 2]]%N, [1; 2]%N, 1, 0. split; [ cbn; lia | ]. split; [ exists [], []; easy | ]. intros ord O.
  destruct (merged_patterns_proof ord O [[1; 2]; [1; 2]]%N [1; 2]%N ltac:(easy)) as (k & r & K & R1 & R2). rewrite R1.
  assert (K3 : tail_at (merged [[1; 2]; [1; 2]]%N) 3).
  { split; [ cbn; lia | ]. split; [ right; exists 0; split; [ lia | exists [], [Some 1%N; Some 2%N; None]; easy ] | ].
    intros j Hj s Hs (l & r' & E & L). destruct j as [|[|[|j]]]; [ lia | | | lia ].
    - assert (s = 0) by lia. subst s. destruct l; [ | easy ]. cbn in E. injection E. intros. discriminate.
    - destruct s as [|[|s]]; [ | | lia ]; [ destruct l; [ | easy ] | destruct l as [|? [|]]; try easy ]; cbn in E; injection E; intros; discriminate. }
  assert (k = 3) by (apply (tail_unique (merged [[1; 2]; [1; 2]]%N)); assumption). subst k.
  destruct r as [l|].
  - exists l. split; [ easy | ]. destruct R2 as (_ & _ & _ & R2). intros H. apply R2 in H. destruct H as (_ & t & i & _ & _ & _ & H). cbn in H. lia.
  - exfalso. apply (R2 [1; 2]%N 0); [ now left | ]. exists [], []. easy.
Qed.
Print Assumptions C65_position_in_last_trace_refuted.

(** * C66: the repeats of traces *)

(** For each trace the reported ranges name, each once and in order, exactly the words whose positions fulfil the condition of
    the kind of repeats; no panic, and the search always ends. *)
Theorem C66_reported_words : forall ord ty log, any_order ord ->
  exists acc, find_repeats ord ty false log = Ok acc /\
    Forall2 (fun w l => names_words (fun a => reported (occurs w a) (before w) (after w a) ty) w l) log acc.
Proof. intros ord ty log O. exact (all_traces_proof ord O ty log). Qed.
Print Assumptions C66_reported_words.
Example C66_case : find_repeats order_back MaximalRepeat false [[1; 2; 1; 2; 3]; []]%N = Ok [[(0, 2)]; []].
Proof. reflexivity. Qed.

(** A reported maximal repeat has two positions with different elements on both sides. *)
Theorem C66_maximal_repeats_are_maximal : forall ord log, any_order ord ->
  exists acc, find_repeats ord MaximalRepeat false log = Ok acc /\
    Forall2 (fun w l => forall x, In x l -> exists a, occurs w a (fst x) /\ snd x = length a /\ maximal_repeat w a) log acc.
Proof.
  intros ord log O. destruct (all_traces_proof ord O MaximalRepeat log) as (acc & A1 & A2). exists acc. split; [ easy | ].
  eapply Forall2_mono; [ | exact A2 ]. intros w l (_ & _ & H & _) x Hx. destruct (H x Hx) as (a & _ & B2 & B3 & B4). exists a. split; [ easy | ]. split; [ easy | ]. now apply maximal_proof.
Qed.
Print Assumptions C66_maximal_repeats_are_maximal.

(** Super maximal repeats are exactly the words which repeat and are part of no longer word which repeats. *)
Theorem C66_super_maximal_repeats : forall ord log, any_order ord ->
  exists acc, find_repeats ord SuperMaximalRepeat false log = Ok acc /\ Forall2 (fun w l => names_words (super_maximal_repeat w) w l) log acc.
Proof.
  intros ord log O. destruct (all_traces_proof ord O SuperMaximalRepeat log) as (acc & A1 & A2). exists acc. split; [ easy | ].
  eapply Forall2_mono; [ | exact A2 ]. intros w l. apply names_iff. intros a. apply super_proof.
Qed.
Print Assumptions C66_super_maximal_repeats.
Example C66_super_case : find_repeats order_in SuperMaximalRepeat false [[1; 2; 3; 9; 1; 2; 3; 8; 2; 7]]%N = Ok [[(0, 3)]] /\
  find_repeats order_in NearSuperMaximalRepeat false [[1; 2; 3; 9; 1; 2; 3; 8; 2; 7]]%N = Ok [[(0, 3); (1, 1)]].
Proof. split; reflexivity. Qed.

(** Near super maximal repeats are maximal and have a position which is in no position of a longer word which repeats. *)
Theorem C66_near_super_maximal_repeats_are_near : forall ord log, any_order ord ->
  exists acc, find_repeats ord NearSuperMaximalRepeat false log = Ok acc /\
    Forall2 (fun w l => forall x, In x l -> exists a, occurs w a (fst x) /\ snd x = length a /\ near_super_maximal_repeat w a) log acc.
Proof.
  intros ord log O. destruct (all_traces_proof ord O NearSuperMaximalRepeat log) as (acc & A1 & A2). exists acc. split; [ easy | ].
  eapply Forall2_mono; [ | exact A2 ]. intros w l (_ & _ & H & _) x Hx. destruct (H x Hx) as (a & _ & B2 & B3 & B4). exists a. split; [ easy | ]. split; [ easy | ]. now apply near_proof.
Qed.
Print Assumptions C66_near_super_maximal_repeats_are_near.

(** Each super maximal repeat is reported as a near super maximal one, and each of these as a maximal one. *)
Theorem C66_kinds_are_nested : forall (w a : list N),
  (reported (occurs w a) (before w) (after w a) SuperMaximalRepeat -> reported (occurs w a) (before w) (after w a) NearSuperMaximalRepeat) /\
  (reported (occurs w a) (before w) (after w a) NearSuperMaximalRepeat -> reported (occurs w a) (before w) (after w a) MaximalRepeat).
Proof. intros w a. split; [ apply super_near_proof | intros H; apply H ]. Qed.
Print Assumptions C66_kinds_are_nested.

(** A maximal repeat at two positions only is reported. *)
Theorem C66_maximal_repeat_of_two_positions : forall (w a : list N) i j, occurs w a i -> occurs w a j -> i <> j ->
  before w i <> before w j -> after w a i <> after w a j -> (forall u, occurs w a u -> u = i \/ u = j) ->
  reported (occurs w a) (before w) (after w a) MaximalRepeat.
Proof. intros w a i j. apply twice_proof. Qed.
Print Assumptions C66_maximal_repeat_of_two_positions.

(** Whatever repeats in a trace is part of a reported word, for each kind. *)
Theorem C66_every_repeat_is_covered : forall ord ty log, any_order ord ->
  exists acc, find_repeats ord ty false log = Ok acc /\
    Forall2 (fun w l => forall b, b <> [] -> repeats w b -> exists x a, In x l /\ occurs w a (fst x) /\ snd x = length a /\ exists p q, a = p ++ b ++ q) log acc.
Proof. intros ord ty log O. exact (cover_proof ord O ty log). Qed.
Print Assumptions C66_every_repeat_is_covered.

(** But not each maximal repeat is reported: the search compares the sets of elements before the word only. *)
Theorem C66_maximal_repeat_missed_refuted : exists w a, maximal_repeat w a /\
  forall ord, any_order ord -> exists l, find_repeats ord MaximalRepeat false [w] = Ok [l] /\ forall x, In x l -> ~ (occurs w a (fst x) /\ snd x = length a).
Proof.
  exists [1; 18; 24; 2; 18; 24; 1; 18; 25; 2; 18; 25]%N, [18]%N. split.
  - exists 1, 10. split; [ exists [1%N], [24; 2; 18; 24; 1; 18; 25; 2; 18; 25]%N; easy | ]. split; [ exists [1; 18; 24; 2; 18; 24; 1; 18; 25; 2]%N, [25%N]; easy | ]. split; [ easy | ]. split; discriminate.
  - intros ord O. destruct (all_traces_proof ord O MaximalRepeat [[1; 18; 24; 2; 18; 24; 1; 18; 25; 2; 18; 25]%N]) as (acc & A1 & A2).
    inversion A2 as [|? l ? ? H H2]; subst. inversion H2; subst. exists l. split; [ exact A1 | ]. destruct H as (_ & _ & H & _). intros x Hx (Ho & Hl).
    destruct (H x Hx) as (a & B1 & B2 & B3 & B4). assert (Ea : a = [18%N]).
    { apply occurs_prefix in Ho, B2. destruct Ho as (_ & Ho). destruct B2 as (_ & B2). apply (prefix_same_length _ _ _ B2 Ho). congruence. }
    subst a. destruct B4 as (s & t & D1 & D2 & D3 & D4).
    assert (P : forall u, occurs [1; 18; 24; 2; 18; 24; 1; 18; 25; 2; 18; 25]%N [18%N] u -> u = 1 \/ u = 4 \/ u = 7 \/ u = 10).
    { intros u Hu. apply occurs_prefix in Hu. destruct Hu as (Hu & r & E). cbn in Hu. do 13 (destruct u as [|u]; [ cbn in E; try discriminate E; tauto | ]). lia. }
    assert (P' : forall u, u = 1 \/ u = 4 \/ u = 7 \/ u = 10 -> occurs [1; 18; 24; 2; 18; 24; 1; 18; 25; 2; 18; 25]%N [18%N] u).
    { intros u Hu. apply occurs_prefix. destruct Hu as [-> | [-> | [-> | ->]]]; (split; [ cbn; lia | eexists; reflexivity ]). }
    apply P in D1. apply P in D2. destruct D4 as [D4|D4]; [ destruct D1 as [-> | [-> | [-> | ->]]]; discriminate | ].
    pose proof (D4 1 (P' 1 ltac:(auto))) as Q1. pose proof (D4 4 (P' 4 ltac:(auto))) as Q4. pose proof (D4 7 (P' 7 ltac:(auto))) as Q7. pose proof (D4 10 (P' 10 ltac:(auto))) as Q10.
    destruct D1 as [-> | [-> | [-> | ->]]]; destruct D2 as [-> | [-> | [-> | ->]]];
      first [ exact (D3 eq_refl) | exact (Q1 eq_refl eq_refl) | exact (Q4 eq_refl eq_refl) | exact (Q7 eq_refl eq_refl) | exact (Q10 eq_refl eq_refl) ].
Qed.
Print Assumptions C66_maximal_repeat_missed_refuted.

(** Nor is each near super maximal one: a free position at the very start does not count. *)
Theorem C66_near_repeat_at_start_missed_refuted : exists w a, near_super_maximal_repeat w a /\
  forall ord, any_order ord -> exists l, find_repeats ord NearSuperMaximalRepeat false [w] = Ok [l] /\ forall x, In x l -> ~ (occurs w a (fst x) /\ snd x = length a).
Proof.
  set (w := [1; 24; 2; 1; 25; 3; 2; 1; 25]%N). exists w, [1%N].
  assert (P : forall u, occurs w [1%N] u -> u = 0 \/ u = 3 \/ u = 7).
  { intros u Hu. apply occurs_prefix in Hu. destruct Hu as (Hu & r & E). cbn in Hu. do 10 (destruct u as [|u]; [ cbn in E; try discriminate E; tauto | ]). lia. }
  assert (P' : forall u, u = 0 \/ u = 3 \/ u = 7 -> occurs w [1%N] u).
  { intros u Hu. apply occurs_prefix. destruct Hu as [-> | [-> | ->]]; (split; [ cbn; lia | eexists; reflexivity ]). }
  split.
  - split.
    + exists 0, 3. split; [ apply P'; tauto | ]. split; [ apply P'; tauto | ]. split; [ easy | ]. split; discriminate.
    + exists 0. split; [ apply P'; tauto | ]. intros b j HL (i1 & i2 & I1 & I2 & I3) Hj (C1 & _). assert (j = 0) by lia. subst j.
      assert (Q : exists r, b = 1%N :: 24%N :: r).
      { apply occurs_prefix in Hj. destruct Hj as (_ & r & E). destruct b as [|x [|y b]]; cbn in HL; try lia. cbn in E. injection E as E1 E2 E3. subst. eauto. }
      destruct Q as (r & ->).
      assert (G : forall i, occurs w (1%N :: 24%N :: r) i -> i = 0).
      { intros i Hi. apply occurs_prefix in Hi. destruct Hi as (Hi & q & E). cbn in Hi. do 10 (destruct i as [|i]; [ cbn in E; try discriminate E; reflexivity | ]). lia. }
      apply G in I1, I2. lia.
  - intros ord O. destruct (all_traces_proof ord O NearSuperMaximalRepeat [w]) as (acc & A1 & A2).
    inversion A2 as [|? l ? ? H H2]; subst. inversion H2; subst. exists l. split; [ exact A1 | ]. destruct H as (_ & _ & H & _). intros x Hx (Ho & Hl).
    destruct (H x Hx) as (a & B1 & B2 & B3 & B4). assert (Ea : a = [1%N]).
    { apply occurs_prefix in Ho, B2. destruct Ho as (_ & Ho). destruct B2 as (_ & B2). apply (prefix_same_length _ _ _ B2 Ho). congruence. }
    subst a. destruct B4 as (_ & s & D1 & D2 & D3). apply P in D1. destruct D1 as [-> | [-> | ->]]; [ exact (D2 eq_refl) | | ].
    + destruct (D3 7 (P' 7 ltac:(auto)) ltac:(lia)) as (Q & _). exact (Q eq_refl).
    + destruct (D3 3 (P' 3 ltac:(tauto)) ltac:(lia)) as (Q & _). exact (Q eq_refl).
Qed.
Print Assumptions C66_near_repeat_at_start_missed_refuted.

(** With the merged strategy the reported ranges are those of the words without separators whose positions before the tail of
    the merged text fulfil the condition, a separator counting as a new element; each word is reported for one trace. *)
Theorem C66_merged_traces : forall ord ty log, any_order ord ->
  exists k acc, tail_at (merged log) k /\ find_repeats ord ty true log = Ok acc /\ length acc = length log /\
    let wanted a := reported (fun s => s < k /\ occurs (merged log) (map Some a) s) (left_of (merged log)) (right_of (merged log) a) ty in
    (forall t x, In x (nth t acc []) -> exists a, a <> [] /\ t < length log /\ occurs (nth t log []) a (fst x) /\ snd x = length a /\ offset log t + fst x < k /\ wanted a) /\
    (forall a, a <> [] -> wanted a -> exists t x, In x (nth t acc []) /\ occurs (nth t log []) a (fst x) /\ snd x = length a) /\
    (forall a t x t' x', In x (nth t acc []) -> In x' (nth t' acc []) -> occurs (nth t log []) a (fst x) -> snd x = length a ->
       occurs (nth t' log []) a (fst x') -> snd x' = length a -> t = t' /\ x = x').
Proof. intros ord ty log O. exact (merged_repeats_proof log ord O ty). Qed.
Print Assumptions C66_merged_traces.
Example C66_merged_case : find_repeats order_in MaximalRepeat true [[1; 2; 3]; [4; 1; 2; 5]; [6; 1; 2; 7]]%N = Ok [[(0, 2)]; []; []].
Proof. reflexivity. Qed.
(** A word reported with the merged strategy is at two places of the log. *)
Theorem C66_merged_words_repeat : forall ord ty log, any_order ord ->
  exists acc, find_repeats ord ty true log = Ok acc /\
    forall t x, In x (nth t acc []) -> exists a t1 i1 t2 i2, occurs (nth t log []) a (fst x) /\ snd x = length a /\ 0 < length a /\
      t1 < length log /\ t2 < length log /\ occurs (nth t1 log []) a i1 /\ occurs (nth t2 log []) a i2 /\ (t1, i1) <> (t2, i2).
Proof.
  intros ord ty log O. destruct (merged_repeats_proof log ord O ty) as (k & acc & _ & A1 & _ & A2 & _). exists acc. split; [ exact A1 | ].
  intros t x Hx. destruct (A2 t x Hx) as (a & B1 & B2 & B3 & B4 & _ & B6). destruct (reported_two _ _ _ _ B6) as (s & s' & (_ & S1) & (_ & S2) & Hne).
  destruct (within log a s B1 S1) as (t1 & i1 & T1 & T2 & T3). destruct (within log a s' B1 S2) as (t2 & i2 & U1 & U2 & U3).
  exists a, t1, i1, t2, i2. split; [ easy | ]. split; [ easy | ]. split; [ destruct a; cbn; [ easy | lia ] | ]. split; [ easy | ]. split; [ easy | ]. split; [ easy | ]. split; [ easy | ].
  intros E. injection E as -> ->. apply Hne. congruence.
Qed.
Print Assumptions C66_merged_words_repeat.
(** Two equal traces have no repeat with the merged strategy. *)
Theorem C66_merged_equal_traces_refuted : exists log w, 2 <= length log /\ w <> [] /\ (forall u, In u log -> u = w) /\
  exists acc, find_repeats order_in MaximalRepeat true log = Ok acc /\ forall l, In l acc -> l = [].
Proof.
  exists [[1; 2]; [1; 2]]%N, [1; 2]%N. split; [ cbn; lia | ]. split; [ easy | ]. split; [ cbn; intuition congruence | ].
  exists [[]; []]. split; [ reflexivity | ]. cbn. intuition congruence.
Qed.
Print Assumptions C66_merged_equal_traces_refuted.

(** The order of the hash maps does not matter for which words are reported. *)
Theorem C66_order_does_not_matter : forall ord ord' ty log, any_order ord -> any_order ord' ->
  exists acc acc', find_repeats ord ty false log = Ok acc /\ find_repeats ord' ty false log = Ok acc' /\
    forall t w a, nth_error log t = Some w ->
      (exists x, In x (nth t acc []) /\ occurs w a (fst x) /\ snd x = length a) <-> (exists x, In x (nth t acc' []) /\ occurs w a (fst x) /\ snd x = length a).
Proof.
  intros ord ord' ty log O O'. destruct (all_traces_proof ord O ty log) as (acc & A1 & A2). destruct (all_traces_proof ord' O' ty log) as (acc' & B1 & B2).
  exists acc, acc'. split; [ easy | ]. split; [ easy | ]. clear A1 B1. revert acc' B2. induction A2 as [|w l log acc H H2 IH]; intros acc' B2 t w0 a Ht; [ now destruct t | ].
  inversion B2 as [|? l' ? acc'' H' H2']; subst. destruct t as [|t]; cbn [nth nth_error] in *; [ | now apply (IH acc'') ]. injection Ht as ->.
  assert (G : forall l l', names_words (fun a => reported (occurs w0 a) (before w0) (after w0 a) ty) w0 l -> names_words (fun a => reported (occurs w0 a) (before w0) (after w0 a) ty) w0 l' ->
    (exists x, In x l /\ occurs w0 a (fst x) /\ snd x = length a) -> exists x, In x l' /\ occurs w0 a (fst x) /\ snd x = length a).
  { intros m m' (_ & _ & M & _) (_ & _ & _ & M' & _) (x & X1 & X2 & X3). destruct (M x X1) as (b & Y1 & Y2 & Y3 & Y4). apply M'.
    - intros ->. destruct b; [ easy | ]. cbn in *. congruence.
    - assert (Eb : b = a) by (apply occurs_prefix in X2, Y2; apply (prefix_same_length _ _ _ (proj2 Y2) (proj2 X2)); congruence). now subst b. }
  split; apply G; assumption.
Qed.
Print Assumptions C66_order_does_not_matter.
