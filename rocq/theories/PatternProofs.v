From Coq Require Import Sorting.Sorted.
From Verif Require Import Py PyFacts HashModel PatternModel PatternSpec.

(** * pieces *)
Lemma nth_piece {A} (l : list A) i n k : nth_error (piece l i n) k = if k <? n then nth_error l (i + k) else None.
Proof.
  unfold piece. destruct (Nat.ltb_spec k n) as [H|H].
  - revert l n k H. induction i as [|i IH]; intros l n k H.
    + cbn [skipn Nat.add]. revert l k H. induction n as [|n IHn]; intros l k H; [lia|]. destruct l as [|x l]; [destruct k; reflexivity|].
      destruct k as [|k]; [reflexivity|]. cbn. apply IHn. lia.
    + destruct l as [|x l]; [cbn; rewrite firstn_nil; destruct k; reflexivity|]. cbn [skipn Nat.add nth_error]. apply IH. exact H.
  - apply nth_error_None. rewrite firstn_length. lia.
Qed.

Lemma nth_error_ext {A} (a b : list A) : (forall k, nth_error a k = nth_error b k) -> a = b.
Proof.
  revert b. induction a as [|x a IH]; intros [|y b] H; [reflexivity|discriminate (H 0)|discriminate (H 0)|].
  pose proof (H 0) as H0. injection H0 as ->. f_equal. apply IH. intros k. exact (H (S k)).
Qed.

Lemma piece_length {A} (l : list A) i n : i + n <= length l -> length (piece l i n) = n.
Proof. intros H. unfold piece. rewrite firstn_length, skipn_length. lia. Qed.

Lemma piece_eq_iff {A} (l : list A) i j n : i + n <= length l -> j + n <= length l ->
  piece l i n = piece l j n <-> forall k, k < n -> nth_error l (i + k) = nth_error l (j + k).
Proof.
  intros H1 H2. split.
  - intros E k Hk. pose proof (nth_piece l i n k) as P1. pose proof (nth_piece l j n k) as P2. rewrite E in P1.
    apply Nat.ltb_lt in Hk. rewrite Hk in *. congruence.
  - intros H. apply nth_error_ext. intros k. rewrite !nth_piece. destruct (Nat.ltb_spec k n); [apply H; assumption|reflexivity].
Qed.

Lemma in_range a b x : In x (range a b) <-> a <= x < b.
Proof. unfold range. rewrite in_seq. lia. Qed.

Lemma same_block_iff trace s c L : s + L <= length trace -> c + L <= length trace ->
  same_block trace s c L = true <-> piece trace c L = piece trace s L.
Proof.
  intros H1 H2. rewrite piece_eq_iff by assumption. unfold same_block. rewrite forallb_forall. split.
  - intros H k Hk. specialize (H k (proj2 (in_range 0 L k) (conj (Nat.le_0_l _) Hk))).
    destruct (nth_error trace (c + k)), (nth_error trace (s + k)); try discriminate. apply N.eqb_eq in H. congruence.
  - intros H k Hk. apply in_range in Hk. destruct Hk as [_ Hk]. rewrite (H k Hk).
    destruct (nth_error trace (s + k)) eqn:E; [apply N.eqb_refl|]. apply nth_error_None in E. lia.
Qed.

Lemma repeated_le {A} (l : list A) i L r r' : r' <= r -> repeated l i L r -> repeated l i L r'.
Proof. intros Hle [H1 H2]. split; [nia|]. intros k Hk. apply H2. lia. Qed.

Lemma count_repeats_spec trace s L : 1 <= L -> forall fuel m, 1 <= m -> repeated trace s L m -> length trace <= fuel + s + m * L ->
  let r := count_repeats fuel trace s L (s + m * L) m in
  m <= r /\ repeated trace s L r /\ ~ repeated trace s L (S r).
Proof.
  intros HL. induction fuel as [|fuel IH]; intros m Hm Hr Hf r.
  - subst r. cbn. split; [lia|]. split; [exact Hr|]. intros [H _]. cbn in H. lia.
  - subst r. cbn [count_repeats]. destruct (Nat.leb_spec (length trace) (s + m * L + L - 1)) as [Hg|Hg].
    + split; [lia|]. split; [exact Hr|]. intros [H _]. cbn in H. lia.
    + destruct (same_block trace s (s + m * L) L) eqn:Eb.
      * apply same_block_iff in Eb; [|destruct m; [lia|]; destruct Hr as [Hr _]; cbn in Hr; lia|lia].
        assert (Hr' : repeated trace s L (m + 1)).
        { split; [lia|]. intros k Hk. destruct (Nat.eq_dec k m) as [->|Hne]; [exact Eb|]. apply (proj2 Hr). lia. }
        specialize (IH (m + 1) ltac:(lia) Hr' ltac:(lia)). replace (s + (m + 1) * L) with (s + m * L + L) in IH by lia.
        cbv zeta in IH. destruct IH as [I1 [I2 I3]]. split; [lia|]. split; assumption.
      * split; [lia|]. split; [exact Hr|]. intros [H1 H2]. assert (same_block trace s (s + m * L) L = true); [|congruence].
        apply same_block_iff; [nia|nia|]. apply H2. lia.
Qed.

Lemma try_extract_spec trace s L : 1 <= L ->
  match try_extract_tandem_array trace s L with
  | Some a => exists r, a = mkTandem s L r /\ 2 <= r /\ repeated trace s L r /\ ~ repeated trace s L (S r)
  | None => ~ repeated trace s L 2
  end.
Proof.
  intros HL. unfold try_extract_tandem_array. destruct (le_lt_dec (s + L) (length trace)) as [H|H].
  - assert (Hr : repeated trace s L 1). { split; [lia|]. intros k Hk. replace k with 0 by lia. f_equal. lia. }
    pose proof (count_repeats_spec trace s L HL (length trace) 1 ltac:(lia) Hr ltac:(lia)) as C.
    replace (s + 1 * L) with (s + L) in C by lia. cbv zeta in C. destruct C as [C1 [C2 C3]].
    destruct (Nat.ltb_spec 1 (count_repeats (length trace) trace s L (s + L) 1)) as [Hlt|Hge].
    + eexists. split; [reflexivity|]. split; [lia|]. split; assumption.
    + intros Hc. apply C3. apply (repeated_le _ _ _ 2); [lia|exact Hc].
  - assert (E : count_repeats (length trace) trace s L (s + L) 1 = 1).
    { destruct (length trace) as [|k] eqn:El; [reflexivity|]. cbn [count_repeats]. rewrite El.
      destruct (Nat.leb_spec (S k) (s + L + L - 1)); [reflexivity|lia]. }
    rewrite E. change (1 <? 1) with false. cbv iota. intros [Hc _]. lia.
Qed.

Lemma repeated_unique {A} (l : list A) i L r r' :
  repeated l i L r -> ~ repeated l i L (S r) -> repeated l i L r' -> ~ repeated l i L (S r') -> r = r'.
Proof.
  intros H1 H2 H3 H4. destruct (lt_eq_lt_dec r r') as [[H|H]|H]; [|exact H|].
  - exfalso. apply H2. apply (repeated_le _ _ _ r'); [lia|assumption].
  - exfalso. apply H4. apply (repeated_le _ _ _ r); [lia|assumption].
Qed.

Lemma try_extract_iff trace s L a : 1 <= L ->
  try_extract_tandem_array trace s L = Some a <->
  exists r, a = mkTandem s L r /\ 2 <= r /\ repeated trace s L r /\ ~ repeated trace s L (S r).
Proof.
  intros HL. pose proof (try_extract_spec trace s L HL) as H. split.
  - intros E. rewrite E in H. exact H.
  - intros [r [-> [H2 [H3 H4]]]]. destruct (try_extract_tandem_array trace s L) as [a|].
    + destruct H as [r' [-> [_ [H5 H6]]]]. rewrite (repeated_unique _ _ _ _ _ H5 H6 H3 H4). reflexivity.
    + exfalso. apply H. apply (repeated_le _ _ _ r); assumption.
Qed.

(** * the window loop *)
Definition whash (trace : list N) (w : nat * nat) : N := collection_poly_hash_slice trace (snd w) (snd w + fst w).

Lemma existsb_N h l : existsb (N.eqb h) l = true <-> In h l.
Proof. rewrite existsb_exists. split; [intros [x [H1 H2]]; apply N.eqb_eq in H2; subst; assumption|intros H; exists h; split; [assumption|apply N.eqb_refl]]. Qed.

Lemma fold_tandem trace a : forall ws vis arr,
  In a (snd (fold_left (tandem_step trace) ws (vis, arr))) <->
  In a arr \/ exists p w q, ws = p ++ w :: q /\ ~ In (whash trace w) vis /\ (forall w', In w' p -> whash trace w' <> whash trace w) /\
                            try_extract_tandem_array trace (snd w) (fst w) = Some a.
Proof.
  induction ws as [|[L i] ws IH]; intros vis arr.
  - cbn. split; [auto|]. intros [H|[p [w [q [H _]]]]]; [exact H|destruct p; discriminate].
  - cbn [fold_left]. unfold tandem_step at 2.
    change (collection_poly_hash_slice trace i (i + L)) with (whash trace (L, i)).
    destruct (existsb (N.eqb (whash trace (L, i))) vis) eqn:Ev.
    + apply existsb_N in Ev. rewrite IH. split.
      * intros [H|[p [w [q [-> [H1 [H2 H3]]]]]]]; [left; exact H|]. right. exists ((L, i) :: p), w, q. split; [reflexivity|]. split; [exact H1|].
        split; [|exact H3]. intros w' [<-|Hw']; [intros E; apply H1; rewrite <- E; exact Ev|apply H2; exact Hw'].
      * intros [H|[p [w [q [E [H1 [H2 H3]]]]]]]; [left; exact H|]. right. destruct p as [|w0 p].
        -- cbn in E. injection E as <- <-. contradiction.
        -- cbn in E. injection E as <- ->. exists p, w, q. split; [reflexivity|]. split; [exact H1|]. split; [|exact H3]. intros w' Hw'. apply H2. right; exact Hw'.
    + assert (Hn : ~ In (whash trace (L, i)) vis) by (intros H; apply existsb_N in H; congruence).
      rewrite IH. split.
      * intros [H|[p [w [q [-> [H1 [H2 H3]]]]]]].
        -- destruct (try_extract_tandem_array trace i L) as [b|] eqn:Et; [|left; exact H].
           apply in_app_or in H. destruct H as [H|[<-|[]]]; [left; exact H|]. right. exists [], (L, i), ws. split; [reflexivity|].
           split; [exact Hn|]. split; [intros w' []|exact Et].
        -- right. exists ((L, i) :: p), w, q. split; [reflexivity|]. split; [intros Hin; apply H1; right; exact Hin|]. split; [|exact H3].
           intros w' [<-|Hw']; [intros E; apply H1; left; exact E|apply H2; exact Hw'].
      * intros [H|[p [w [q [E [H1 [H2 H3]]]]]]].
        -- left. destruct (try_extract_tandem_array trace i L); [apply in_or_app; left|]; exact H.
        -- destruct p as [|w0 p].
           ++ cbn in E. injection E as <- <-. left. cbn [fst snd] in H3. rewrite H3. apply in_or_app. right. left. reflexivity.
           ++ cbn in E. injection E as <- ->. right. exists p, w, q. split; [reflexivity|]. split.
              ** intros [Hin|Hin]; [apply (H2 (L, i) (or_introl eq_refl)); exact Hin|contradiction].
              ** split; [|exact H3]. intros w' Hw'. apply H2. right; exact Hw'.
Qed.

Lemma in_windows n max L i : In (L, i) (windows n max) <-> 2 <= L /\ (Z.of_nat L < max)%Z /\ i + L < n.
Proof.
  unfold windows. rewrite in_flat_map. split.
  - intros [L' [H1 H2]]. apply in_map_iff in H2. destruct H2 as [i' [E H2]]. injection E as -> ->. apply in_range in H1, H2. lia.
  - intros [H1 [H2 H3]]. exists L. split; [apply in_range; lia|]. apply in_map_iff. exists i. split; [reflexivity|]. apply in_range. lia.
Qed.

Lemma seq_sorted a n : StronglySorted lt (seq a n).
Proof. revert a. induction n as [|n IH]; intros a; constructor; [apply IH|]. apply Forall_forall. intros x Hx. apply in_seq in Hx. lia. Qed.

Lemma StronglySorted_app {A} (R : A -> A -> Prop) l1 l2 : StronglySorted R l1 -> StronglySorted R l2 ->
  (forall x y, In x l1 -> In y l2 -> R x y) -> StronglySorted R (l1 ++ l2).
Proof.
  intros H1 H2 H. induction H1 as [|x l1 H1 IH HF]; [exact H2|]. cbn. constructor.
  - apply IH. intros a b Ha Hb. apply H; [right|]; assumption.
  - apply Forall_app. split; [exact HF|]. apply Forall_forall. intros y Hy. apply H; [left; reflexivity|exact Hy].
Qed.

Lemma windows_sorted n max : StronglySorted before (windows n max).
Proof.
  unfold windows, range. generalize (Z.to_nat max - 2) as k. intros k. generalize 2 as a. induction k as [|k IH]; intros a; [constructor|].
  cbn [seq flat_map]. apply StronglySorted_app; [|apply IH|].
  - generalize (seq_sorted 0 (n - a - 0)). generalize (seq 0 (n - a - 0)) as s. induction 1 as [|x s Hs IHs HF]; [constructor|]. cbn. constructor; [exact IHs|].
    apply Forall_forall. intros y Hy. apply in_map_iff in Hy. destruct Hy as [z [<- Hz]]. right. split; [reflexivity|]. cbn. rewrite Forall_forall in HF. apply HF. exact Hz.
  - intros x y Hx Hy. apply in_map_iff in Hx. destruct Hx as [i [<- _]]. apply in_flat_map in Hy. destruct Hy as [L [HL Hy]].
    apply in_map_iff in Hy. destruct Hy as [j [<- _]]. apply in_seq in HL. left. cbn. lia.
Qed.

Lemma before_irrefl w : ~ before w w.
Proof. unfold before. lia. Qed.
Lemma before_asym w w' : before w w' -> ~ before w' w.
Proof. unfold before. lia. Qed.

Lemma sorted_split (ws p q : list (nat * nat)) w w' : StronglySorted before ws -> ws = p ++ w :: q -> (In w' p <-> In w' ws /\ before w' w).
Proof.
  intros Hs ->. split.
  - intros Hin. split; [apply in_or_app; left; exact Hin|]. revert Hs. induction p as [|x p IH]; [destruct Hin|]. intros Hs.
    cbn in Hs. inversion Hs as [|? ? Hs' HF]; subst. destruct Hin as [->|Hin].
    + rewrite Forall_forall in HF. apply HF. apply in_or_app. right; left; reflexivity.
    + apply IH; assumption.
  - intros [Hin Hb]. apply in_app_or in Hin. destruct Hin as [Hin|[<-|Hin]]; [exact Hin|exfalso; exact (before_irrefl _ Hb)|].
    exfalso. assert (Hq : before w w'); [|exact (before_asym _ _ Hb Hq)]. clear Hb. induction p as [|x p IH].
    + inversion Hs as [|? ? _ HF]; subst. rewrite Forall_forall in HF. apply HF. exact Hin.
    + cbn in Hs. inversion Hs; subst. apply IH. assumption.
Qed.

Lemma tandem_exact_proof trace max i L r :
  In (mkTandem i L r) (maximal_tandem_arrays_of_trace trace max) <->
  2 <= L /\ (Z.of_nat L < max)%Z /\ 2 <= r /\ repeated trace i L r /\ ~ repeated trace i L (S r) /\
  (forall L' i', 2 <= L' -> i' + L' < length trace -> before (L', i') (L, i) ->
     collection_poly_hash_slice trace i' (i' + L') <> collection_poly_hash_slice trace i (i + L)).
Proof.
  unfold maximal_tandem_arrays_of_trace. rewrite fold_tandem. pose proof (windows_sorted (length trace) max) as Hs. split.
  - intros [[]|[p [[L0 i0] [q [E [_ [H2 H3]]]]]]]. cbn [fst snd] in H3.
    assert (Hw : In (L0, i0) (windows (length trace) max)) by (rewrite E; apply in_or_app; right; left; reflexivity).
    apply in_windows in Hw. apply try_extract_iff in H3; [|lia]. destruct H3 as [r' [[= -> -> ->] [R1 [R2 R3]]]].
    split; [lia|]. split; [lia|]. split; [exact R1|]. split; [exact R2|]. split; [exact R3|]. intros L' i' HL' Hi' Hb.
    apply (H2 (L', i')). apply (sorted_split _ _ _ _ (L', i') Hs E). split; [|exact Hb]. apply in_windows. unfold before in Hb. cbn in Hb. lia.
  - intros [H1 [H2 [R1 [R2 [R3 H3]]]]]. right.
    assert (Hw : In (L, i) (windows (length trace) max)) by (apply in_windows; destruct R2 as [R2 _]; nia).
    apply in_split in Hw. destruct Hw as [p [q E]]. exists p, (L, i), q. split; [exact E|]. split; [intros []|]. split.
    + intros [L' i'] Hin. apply (sorted_split _ _ _ _ (L', i') Hs E) in Hin. destruct Hin as [Hin Hb]. apply in_windows in Hin.
      apply (H3 L' i'); [lia|lia|exact Hb].
    + apply try_extract_iff; [cbn; lia|]. exists r. auto.
Qed.

Lemma slice_hash_piece trace i L : trace <> [] -> collection_poly_hash_slice trace i (i + L) = fst (fold_left hash_step (piece trace i L) (1%N, 1%N)).
Proof. intros H. unfold collection_poly_hash_slice, piece. destruct trace; [congruence|]. replace (i + L - i) with L by lia. reflexivity. Qed.

Lemma tandem_first_proof trace max i L r : no_collision trace ->
  (In (mkTandem i L r) (maximal_tandem_arrays_of_trace trace max) <->
   2 <= L /\ (Z.of_nat L < max)%Z /\ 2 <= r /\ repeated trace i L r /\ ~ repeated trace i L (S r) /\
   forall i', i' < i -> piece trace i' L <> piece trace i L).
Proof.
  intros Hc. rewrite tandem_exact_proof. split; intros [H1 [H2 [R1 [R2 [R3 H3]]]]]; (split; [exact H1|]; split; [exact H2|]; split; [exact R1|]; split; [exact R2|]; split; [exact R3|]).
  - intros i' Hi' E. assert (Hl : i' + L < length trace) by (destruct R2 as [R2 _]; nia).
    apply (H3 L i' H1 Hl); [right; split; [reflexivity|exact Hi']|].
    assert (Ht : trace <> []) by (intros ->; cbn in Hl; lia). rewrite !slice_hash_piece by exact Ht. rewrite E. reflexivity.
  - intros L' i' HL' Hi' Hb E. assert (Hl : i + L <= length trace) by (destruct R2 as [R2 _]; nia).
    apply Hc in E; [|lia|lia]. assert (L' = L).
    { apply (f_equal (@length N)) in E. rewrite !piece_length in E by lia. exact E. }
    subst L'. destruct Hb as [Hb|[_ Hb]]; cbn in Hb; [lia|]. apply (H3 i' Hb E).
Qed.

(** * primitive *)
Lemma primitive_exact_proof traces max n ts arrays prims :
  nth_error traces n = Some ts ->
  nth_error (find_maximal_tandem_arrays traces max) n = Some arrays ->
  nth_error (find_primitive_tandem_arrays traces max) n = Some prims ->
  forall a, In a prims <-> In a arrays /\ forall c, 2 <= c -> 2 * c <= ta_length a + 1 -> ~ repeated ts (ta_first_pos a) c 2.
Proof.
  intros Ht Ha Hp a. unfold find_primitive_tandem_arrays in Hp. rewrite nth_error_map in Hp.
  assert (E : nth_error (combine (find_maximal_tandem_arrays traces max) traces) n = Some (arrays, ts)).
  { revert Ht Ha. generalize (find_maximal_tandem_arrays traces max) as fs. clear. intros fs. revert traces n. induction fs as [|f fs IH]; intros [|t traces] [|n] H1 H2; cbn in *; try discriminate; [congruence|apply IH; assumption]. }
  rewrite E in Hp. cbn in Hp. injection Hp as <-. rewrite filter_In. apply and_iff_compat_l.
  unfold is_primitive_array. rewrite forallb_forall. split.
  - intros H c H1 H2. assert (Hin : In c (range 2 ((ta_length a + 3) / 2))).
    { apply in_range. split; [exact H1|]. apply (Nat.div_le_lower_bound (ta_length a + 3) 2 (S c)); lia. }
    specialize (H c Hin). pose proof (try_extract_spec ts (ta_first_pos a) c ltac:(lia)) as S.
    destruct (try_extract_tandem_array ts (ta_first_pos a) c); [discriminate|exact S].
  - intros H c Hc. apply in_range in Hc. destruct Hc as [H1 H2].
    assert (H3 : 2 * c <= ta_length a + 1). { pose proof (Nat.mul_div_le (ta_length a + 3) 2 ltac:(lia)). lia. }
    specialize (H c H1 H3). pose proof (try_extract_spec ts (ta_first_pos a) c ltac:(lia)) as S.
    destruct (try_extract_tandem_array ts (ta_first_pos a) c) as [b|]; [|reflexivity]. destruct S as [r [_ [S1 [S2 _]]]].
    exfalso. apply H. apply (repeated_le _ _ _ r); assumption.
Qed.

Lemma piece_piece {A} (l : list A) i L k n : k + n <= L -> piece (piece l i L) k n = piece l (i + k) n.
Proof.
  intros H. apply nth_error_ext. intros j. rewrite (nth_piece (piece l i L) k), (nth_piece l (i + k)). destruct (Nat.ltb_spec j n) as [Hj|Hj].
  - rewrite nth_piece. destruct (Nat.ltb_spec (k + j) L); [f_equal; lia|lia].
  - reflexivity.
Qed.

Lemma primitive_not_power_proof traces max n ts prims :
  nth_error traces n = Some ts -> nth_error (find_primitive_tandem_arrays traces max) n = Some prims ->
  forall a, In a prims -> forall c k, 2 <= c -> 2 <= k -> k * c = ta_length a ->
    ~ repeated (piece ts (ta_first_pos a) (ta_length a)) 0 c k.
Proof.
  intros Ht Hp a Ha c k Hc Hk HL Hr.
  assert (Hm : nth_error (find_maximal_tandem_arrays traces max) n = Some (maximal_tandem_arrays_of_trace ts max))
    by (unfold find_maximal_tandem_arrays; rewrite nth_error_map, Ht; reflexivity).
  pose proof (proj1 (primitive_exact_proof traces max n ts _ prims Ht Hm Hp a) Ha) as [Hin Hno].
  destruct a as [i L r]. cbn [ta_first_pos ta_length] in *. apply tandem_exact_proof in Hin. destruct Hin as [_ [_ [R1 [[R2 _] _]]]].
  apply (Hno c Hc ltac:(nia)). split; [nia|]. intros j Hj. destruct j as [|[|j]]; [f_equal; lia| |lia].
  destruct Hr as [_ Hr]. specialize (Hr 1 ltac:(lia)). rewrite (piece_piece ts i (ta_length (mkTandem i L r))), piece_piece in Hr by (cbn; nia). rewrite Nat.add_0_r in Hr.
  replace (i + (0 + 1 * c)) with (i + 1 * c) in Hr by lia. exact Hr.
Qed.
