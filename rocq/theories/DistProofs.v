From Verif Require Import Py PyFacts DecodeModel DatasetModel DatasetProofs DistModel DistSpec.

(** * Scripts *)

Section Scripts.
Context {A : Type}.
Implicit Types a b : list A.
Lemma script_refl a : script a a 0.
Proof. induction a; constructor; assumption. Qed.
Lemma script_drops a : script a [] (length a).
Proof. induction a; cbn; constructor; assumption. Qed.
Lemma script_adds b : script [] b (length b).
Proof. induction b; cbn; constructor; assumption. Qed.
Lemma script_app a b n : script a b n -> forall c d m, script c d m -> script (a ++ c) (b ++ d) (n + m).
Proof. induction 1; intros c d m' H'; cbn; try (constructor; auto; fail). exact H'. Qed.
Lemma script_rev a b n : script a b n -> script (rev a) (rev b) n.
Proof.
  induction 1; cbn [rev].
  - constructor.
  - rewrite <- (Nat.add_0_r n). apply script_app; [assumption|apply script_refl].
  - rewrite <- Nat.add_1_r. apply script_app; [assumption|repeat constructor].
  - rewrite <- Nat.add_1_r, <- (app_nil_r (rev b)). apply script_app; [assumption|repeat constructor].
  - rewrite <- Nat.add_1_r, <- (app_nil_r (rev a)). apply script_app; [assumption|repeat constructor].
Qed.
Lemma script_length a b n : script a b n -> length a <= length b + n /\ length b <= length a + n.
Proof. induction 1; cbn [length]; lia. Qed.
Lemma script_zero a b : script a b 0 -> a = b.
Proof. intros H. remember 0 as n. revert Heqn. induction H; intros E; try discriminate; [reflexivity|]. f_equal. auto. Qed.
(** Leaving out what does not fulfil [p] makes no script longer. *)
Lemma script_filter (p : A -> bool) a b n : script a b n -> exists m, m <= n /\ script (filter p a) (filter p b) m.
Proof.
  induction 1 as [|x a b n H (m & Hm & IH)|x y a b n H (m & Hm & IH)|x a b n H (m & Hm & IH)|y a b n H (m & Hm & IH)]; cbn [filter].
  - exists 0. split; [lia|constructor].
  - exists m. split; [lia|]. destruct (p x); [constructor|]; assumption.
  - destruct (p x), (p y); [exists (S m)|exists (S m)|exists (S m)|exists m]; (split; [lia|]); try constructor; assumption.
  - destruct (p x); [exists (S m)|exists m]; (split; [lia|]); try constructor; assumption.
  - destruct (p y); [exists (S m)|exists m]; (split; [lia|]); try constructor; assumption.
Qed.

End Scripts.
Lemma script_map {A B} (f : A -> B) a b n : script a b n -> script (map f a) (map f b) n.
Proof. induction 1; cbn; constructor; assumption. Qed.
Lemma script_unmap {A B} (f : A -> B) a' b' n : script a' b' n -> forall a b, a' = map f a -> b' = map f b ->
  (forall x y, In x a -> In y b -> f x = f y -> x = y) -> script a b n.
Proof.
  induction 1; intros a0 b0 Ea Eb Hi.
  - destruct a0, b0; try discriminate. constructor.
  - destruct a0 as [|x0 a0], b0 as [|y0 b0]; try discriminate. cbn in Ea, Eb. injection Ea as -> ->. injection Eb as E ->.
    rewrite (Hi x0 y0) by (try (left; reflexivity); assumption). constructor. apply IHscript; auto. intros; apply Hi; try (right; assumption). assumption.
  - destruct a0 as [|x0 a0], b0 as [|y0 b0]; try discriminate. cbn in Ea, Eb. injection Ea as -> ->. injection Eb as -> ->.
    constructor. apply IHscript; auto. intros; apply Hi; try (right; assumption). assumption.
  - destruct a0 as [|x0 a0]; try discriminate. cbn in Ea. injection Ea as -> ->. constructor. apply IHscript; auto. intros; apply Hi; try (right; assumption); assumption.
  - destruct b0 as [|y0 b0]; try discriminate. cbn in Eb. injection Eb as -> ->. constructor. apply IHscript; auto. intros; apply Hi; try (right; assumption); assumption.
Qed.
Lemma levenshtein_map {A B} (f : A -> B) a b n : (forall x y, In x a -> In y b -> f x = f y -> x = y) ->
  levenshtein a b n -> levenshtein (map f a) (map f b) n.
Proof.
  intros Hi [H1 H2]. split; [apply script_map, H1|]. intros m Hm. apply H2. eapply script_unmap; [exact Hm|reflexivity|reflexivity|exact Hi].
Qed.

(** * The recursion *)

Fixpoint L (a : list N) : list N -> nat :=
  match a with
  | [] => fun b => length b
  | x :: a' => fix inner (b : list N) : nat :=
      match b with
      | [] => length a
      | y :: b' => if (x =? y)%N then L a' b' else S (Nat.min (Nat.min (L a' b) (inner b')) (L a' b'))
      end
  end.
Lemma L_nil_r a : L a [] = length a.
Proof. destruct a; reflexivity. Qed.
Lemma L_cons x a y b : L (x :: a) (y :: b) = if (x =? y)%N then L a b else S (Nat.min (Nat.min (L a (y :: b)) (L (x :: a) b)) (L a b)).
Proof. reflexivity. Qed.
Lemma L_script a : forall b, script a b (L a b).
Proof.
  induction a as [|x a IH]; [intros b; apply script_adds|]. induction b as [|y b IHb]; [apply script_drops|].
  rewrite L_cons. destruct (N.eqb_spec x y) as [->|E]; [constructor; apply IH|].
  destruct (Nat.min_spec (Nat.min (L a (y :: b)) (L (x :: a) b)) (L a b)) as [[_ ->]|[_ ->]]; [|apply s_change, IH].
  destruct (Nat.min_spec (L a (y :: b)) (L (x :: a) b)) as [[_ ->]|[_ ->]]; [apply s_drop, IH|apply s_add, IHb].
Qed.
(** Neighbours differ by at most one. *)
Lemma L_close a : forall b, (forall x, L (x :: a) b <= S (L a b)) /\ (forall y, L a (y :: b) <= S (L a b)) /\ (forall x, L a b <= S (L (x :: a) b)) /\ (forall y, L a b <= S (L a (y :: b))).
Proof.
  induction a as [|z a IHa].
  - induction b as [|w b IHb].
    + cbn. repeat split; intros; lia.
    + destruct IHb as (B1 & B2 & B3 & B4).
      assert (E : forall c, L [] c = length c) by reflexivity. rewrite !E in *. cbn [length] in *.
      repeat split; intros v; rewrite ?L_cons, ?E; cbn [length]; try lia.
      * destruct (v =? w)%N; rewrite ?E; cbn [length]; [lia|]. specialize (B1 v). lia.
      * specialize (B3 v). destruct (v =? w)%N; rewrite ?E; cbn [length]; lia.
  - induction b as [|w b IHb].
    + destruct (IHa []) as (A1 & A2 & A3 & A4). rewrite L_nil_r in *. cbn [length] in *. repeat split; intros v; rewrite ?L_cons, ?L_nil_r; cbn [length]; try lia.
      * destruct (z =? v)%N; rewrite ?L_nil_r; cbn [length]; [lia|]. specialize (A2 v). lia.
      * specialize (A4 v). destruct (z =? v)%N; rewrite ?L_nil_r; cbn [length]; lia.
    + destruct (IHa (w :: b)) as (A1 & A2 & A3 & A4). destruct (IHa b) as (C1 & C2 & C3 & C4). destruct IHb as (B1 & B2 & B3 & B4).
      pose proof (A1 z) as A1z. pose proof (A3 z) as A3z. pose proof (C1 z) as C1z. pose proof (C3 z) as C3z. pose proof (C2 w) as C2w. pose proof (C4 w) as C4w. pose proof (B2 w) as B2w. pose proof (B4 w) as B4w.
      assert (E : L (z :: a) (w :: b) = if (z =? w)%N then L a b else S (Nat.min (Nat.min (L a (w :: b)) (L (z :: a) b)) (L a b))) by reflexivity.
      repeat split; intros v.
      * rewrite (L_cons v). specialize (B1 v). destruct (v =? w)%N; lia.
      * rewrite (L_cons z). specialize (A2 v). destruct (z =? v)%N; lia.
      * rewrite (L_cons v). specialize (B3 v). destruct (v =? w)%N; destruct (z =? w)%N; lia.
      * rewrite (L_cons z a v (w :: b)). specialize (A4 v). destruct (z =? v)%N; destruct (z =? w)%N; lia.
Qed.
Lemma L_least a b n : script a b n -> L a b <= n.
Proof.
  induction 1.
  - reflexivity.
  - rewrite L_cons, N.eqb_refl. exact IHscript.
  - rewrite L_cons. destruct (x =? y)%N; lia.
  - pose proof (proj1 (L_close a b) x). lia.
  - pose proof (proj1 (proj2 (L_close a b)) y). lia.
Qed.
Lemma L_levenshtein a b n : levenshtein a b n <-> n = L (rev a) (rev b).
Proof.
  assert (G : levenshtein a b (L (rev a) (rev b))).
  { split.
    - pose proof (script_rev _ _ _ (L_script (rev a) (rev b))) as H. rewrite !rev_involutive in H. exact H.
    - intros m H. apply L_least, script_rev, H. }
  split.
  - intros [H1 H2]. destruct G as [G1 G2]. specialize (H2 _ G1). specialize (G2 _ H1). lia.
  - intros ->. exact G.
Qed.

(** What the matrix holds, for prefixes read backwards. *)
Fixpoint M (a : list N) : list N -> nat :=
  match a with
  | [] => fun b => length b
  | x :: a' => fix inner (b : list N) : nat :=
      match b with
      | [] => length a'
      | y :: b' => next_number x y (inner b') (M a' b) (M a' b')
      end
  end.
Lemma M_cons x a y b : M (x :: a) (y :: b) = next_number x y (M (x :: a) b) (M a (y :: b)) (M a b).
Proof. reflexivity. Qed.
Lemma removelast_cons2 {A} (x y : A) l : removelast (x :: y :: l) = x :: removelast (y :: l).
Proof. reflexivity. Qed.
Lemma removelast_length {A} (l : list A) : length (removelast l) = length l - 1.
Proof. induction l as [|x [|y l] IH]; [reflexivity|reflexivity|]. rewrite removelast_cons2. cbn [length] in *. lia. Qed.
Lemma M_value a : forall b, a <> [] -> M a b = Nat.min (L a b) (L (removelast a) b).
Proof.
  induction a as [|x a IHa]; [congruence|]. induction b as [|y b IHb]; intros _.
  - rewrite !L_nil_r, removelast_length. change (M (x :: a) []) with (length a). cbn [length]. lia.
  - specialize (IHb ltac:(discriminate)). rewrite M_cons, IHb, L_cons. unfold next_number. destruct a as [|z a].
    + cbn [removelast]. assert (E : forall c, L [] c = length c) by reflexivity. assert (E' : forall c, M [] c = length c) by reflexivity. rewrite !E, !E'. cbn [length].
      destruct (x =? y)%N; lia.
    + rewrite !IHa by discriminate. rewrite !removelast_cons2, (L_cons x (removelast (z :: a))). destruct (x =? y)%N; lia.
Qed.

(** * The matrix *)

Lemma rev_firstn_S {A} (l : list A) i x : nth_error l i = Some x -> rev (firstn (S i) l) = x :: rev (firstn i l).
Proof.
  revert i. induction l as [|y l IH]; intros [|i] H; try discriminate; cbn [nth_error] in H.
  - injection H as ->. reflexivity.
  - change (rev (y :: firstn (S i) l) = x :: rev (y :: firstn i l)). cbn [rev]. rewrite (IH i H). reflexivity.
Qed.
Definition entry (a b : list N) (j i : nat) : nat := M (rev (firstn i a)) (rev (firstn j b)).
Lemma next_row_loop a b y j previous : nth_error b j = Some y ->
  (forall i, i <= length a -> nth_error previous i = Some (entry a b j i)) ->
  forall k, k <= length a -> loopM (fun row i =>
      bind (at_index a (i - 1)) (fun x =>
      bind (at_index previous i) (fun up =>
      bind (at_index row (i - 1)) (fun left =>
      bind (at_index previous (i - 1)) (fun diagonal =>
      Ok (row ++ [next_number x y up left diagonal])))))) (seq 1 k) [S j] = Ok (map (entry a b (S j)) (seq 0 (S k))).
Proof.
  intros Hy Hp. induction k as [|k IH]; intros Hk.
  - cbn [seq loopM map]. unfold entry. change (rev (firstn 0 a)) with (@nil N). assert (E : forall c, M [] c = length c) by reflexivity. rewrite E, rev_length, firstn_length.
    assert (j < length b) by (apply nth_error_Some; congruence). do 2 f_equal. lia.
  - rewrite (seq_S k 1). cbn [Nat.add].
    assert (App : forall A B (f : A -> B -> result A) l1 l2 s, loopM f (l1 ++ l2) s = bind (loopM f l1 s) (loopM f l2)).
    { clear. intros A B f l1. induction l1 as [|x l1 IH]; intros l2 s; [reflexivity|]. cbn [app]. rewrite !loopM_cons. destruct (f s x); cbn [bind]; [apply IH|reflexivity]. }
    rewrite App, IH by lia. cbn [bind]. rewrite loopM_cons.
    replace (S k - 1) with k by lia.
    destruct (nth_error a k) as [x|] eqn:Hx; [|apply nth_error_None in Hx; lia].
    unfold at_index. rewrite Hx, (Hp (S k)), (Hp k) by lia. cbn [bind].
    assert (Hl : nth_error (map (entry a b (S j)) (seq 0 (S k))) k = Some (entry a b (S j) k)).
    { apply map_nth_error. rewrite (nth_error_nth' _ 0) by (rewrite seq_length; lia). rewrite seq_nth by lia. reflexivity. }
    rewrite Hl. cbn [bind loopM]. rewrite (seq_S (S k) 0), map_app. cbn [map Nat.add]. do 3 f_equal.
    unfold entry. rewrite (rev_firstn_S a k x Hx), (rev_firstn_S b j y Hy). symmetry. apply M_cons.
Qed.
Lemma matrix_loop a b : forall k, k <= length b ->
  exists m, loopM (fun matrix j =>
      bind (at_index b (j - 1)) (fun y =>
      bind (at_index matrix (j - 1)) (fun previous =>
      bind (next_row a y previous j) (fun row => Ok (matrix ++ [row]))))) (seq 1 k) [first_row (length a + 1)] = Ok m /\
    length m = S k /\ forall j i row, j <= k -> i <= length a -> nth_error m j = Some row -> nth_error row i = Some (entry a b j i).
Proof.
  induction k as [|k IH]; intros Hk.
  - exists [first_row (length a + 1)]. split; [reflexivity|]. split; [reflexivity|]. intros j i row Hj Hi E. assert (j = 0) by lia. subst j. cbn in E. injection E as <-.
    unfold entry, first_row. change (rev (firstn 0 b)) with (@nil N). destruct i as [|i]; [reflexivity|]. cbn [app nth_error]. rewrite (nth_error_nth' _ 0) by (rewrite seq_length; lia). rewrite seq_nth by lia.
    cbn [Nat.add]. f_equal. destruct (nth_error a i) as [x|] eqn:Hx; [|apply nth_error_None in Hx; lia]. rewrite (rev_firstn_S a i x Hx). cbn [M]. rewrite rev_length, firstn_length. lia.
  - destruct (IH ltac:(lia)) as (m & E & Hl & Hm). rewrite (seq_S k 1). cbn [Nat.add].
    assert (App : forall A B (f : A -> B -> result A) l1 l2 s, loopM f (l1 ++ l2) s = bind (loopM f l1 s) (loopM f l2)).
    { clear. intros A B f l1. induction l1 as [|x l1 IH]; intros l2 s; [reflexivity|]. cbn [app]. rewrite !loopM_cons. destruct (f s x); cbn [bind]; [apply IH|reflexivity]. }
    rewrite App, E. cbn [bind]. rewrite loopM_cons. replace (S k - 1) with k by lia.
    destruct (nth_error b k) as [y|] eqn:Hy; [|apply nth_error_None in Hy; lia]. unfold at_index at 1. rewrite Hy. cbn [bind].
    destruct (nth_error m k) as [previous|] eqn:Hp; [|apply nth_error_None in Hp; lia]. unfold at_index at 1. rewrite Hp. cbn [bind].
    unfold next_row. rewrite (next_row_loop a b y k previous Hy (fun i Hi => Hm k i previous (Nat.le_refl k) Hi Hp) (length a) (Nat.le_refl _)). cbn [bind loopM].
    eexists. split; [reflexivity|]. split; [rewrite app_length; cbn; lia|]. intros j i row Hj Hi Er.
    destruct (Nat.eq_dec j (S k)) as [->|Hne].
    + rewrite nth_error_app2 in Er by lia. replace (S k - length m) with 0 in Er by lia. cbn [nth_error] in Er. apply (f_equal (fun o => match o with Some r => r | None => [] end)) in Er. cbv beta iota in Er. subst row.
      apply (map_nth_error (entry a b (S k)) i (seq 0 (S (length a)))). rewrite (nth_error_nth' _ 0) by (rewrite seq_length; lia). rewrite seq_nth by lia. reflexivity.
    + rewrite nth_error_app1 in Er by lia. apply (Hm j i row); [lia|exact Hi|exact Er].
Qed.
Lemma distance_value a b : length a = length b -> lev_distance a b = Ok (M (rev a) (rev b)).
Proof.
  intros Hl. unfold lev_distance, lev_matrix. destruct (matrix_loop a b (length b) (Nat.le_refl _)) as (m & -> & Hm & He). cbn [bind].
  unfold at_index. destruct (nth_error m (length a)) as [row|] eqn:Er; [|apply nth_error_None in Er; lia]. cbn [bind].
  rewrite (He (length a) (length b) row ltac:(lia) ltac:(lia) Er). unfold entry. rewrite Hl, firstn_all. rewrite <- Hl, firstn_all. reflexivity.
Qed.
Lemma rev_tl {A} (l : list A) : rev (tl l) = removelast (rev l).
Proof. destruct l as [|x l]; [reflexivity|]. cbn [tl rev]. rewrite removelast_last. reflexivity. Qed.
Lemma distance_proof a b : length a = length b ->
  exists d n m, lev_distance a b = Ok d /\ levenshtein a b n /\ levenshtein (tl a) b m /\ d = Nat.min n m.
Proof.
  intros Hl. exists (M (rev a) (rev b)), (L (rev a) (rev b)), (L (rev (tl a)) (rev b)). split; [apply distance_value, Hl|].
  split; [apply L_levenshtein; reflexivity|]. split; [apply L_levenshtein; reflexivity|].
  destruct a as [|x a]; [destruct b; [reflexivity|discriminate]|]. rewrite rev_tl. apply M_value. cbn [rev]. intros H. apply app_eq_nil in H. destruct H. discriminate.
Qed.
Lemma levenshtein_exists (a b : list N) : exists n, levenshtein a b n.
Proof. eexists. apply L_levenshtein. reflexivity. Qed.
Lemma levenshtein_unique {A} (a b : list A) n m : levenshtein a b n -> levenshtein a b m -> n = m.
Proof. intros [H1 H2] [H3 H4]. specialize (H2 _ H3). specialize (H4 _ H1). lia. Qed.
Lemma tail_close {A} (a b : list A) n m : levenshtein a b n -> levenshtein (tl a) b m -> n <= S m.
Proof.
  intros [_ H] [H' _]. destruct a as [|x a]; cbn [tl] in H'.
  - specialize (H _ H'). lia.
  - apply H. constructor. exact H'.
Qed.
Lemma close_proof a b d n : length a = length b -> lev_distance a b = Ok d -> levenshtein a b n -> n - 1 <= d <= n.
Proof.
  intros Hl Hd Hn. destruct (distance_proof a b Hl) as (d' & n' & m & E & Hn' & Hm & ->). assert (d = Nat.min n' m) by congruence.
  rewrite (levenshtein_unique _ _ _ _ Hn' Hn) in *. pose proof (tail_close _ _ _ _ Hn Hm). lia.
Qed.
Lemma zero_proof a b d : length a = length b -> lev_distance a b = Ok d -> (d = 0 <-> a = b).
Proof.
  intros Hl Hd. destruct (distance_proof a b Hl) as (d' & n & m & E & Hn & Hm & ->). assert (d = Nat.min n m) by congruence. subst d. split.
  - intros H. destruct (Nat.min_spec n m) as [[_ X]|[_ X]]; rewrite X in H; subst.
    + apply script_zero, Hn.
    + destruct a as [|x a]; [symmetry; apply length_zero_iff_nil; symmetry; exact Hl|]. destruct Hm as [Hm _]. apply script_length in Hm. cbn [tl length] in *. lia.
  - intros ->. destruct Hn as [_ Hn]. specialize (Hn 0 (script_refl b)). lia.
Qed.

(** * Rows of traces *)

Lemma filter_pads (u : list N) p : (forall x, In x u -> x <> 0%N) -> filter (fun x => negb (x =? 0)%N) (u ++ repeat 0%N p) = u.
Proof.
  intros H. rewrite filter_app. replace (filter (fun x => negb (x =? 0)%N) (repeat 0%N p)) with (@nil N) by (induction p; cbn; auto). rewrite app_nil_r.
  induction u as [|x u IH]; [reflexivity|]. cbn [filter]. destruct (N.eqb_spec x 0) as [->|E]; [exfalso; apply (H 0%N); [left; reflexivity|reflexivity]|]. cbn [negb]. f_equal. apply IH. intros y Hy. apply H. right. exact Hy.
Qed.
Lemma pads_script p : forall q, script (repeat 0%N p) (repeat 0%N q) (Nat.max p q - Nat.min p q).
Proof.
  induction p as [|p IH]; intros [|q]; cbn [repeat]; try (constructor; fail).
  - cbn [Nat.max Nat.min]. rewrite Nat.sub_0_r. change (S q) with (length (0%N :: repeat 0%N q)) || idtac.
    pose proof (script_adds (0%N :: repeat 0%N q)) as H. cbn [length] in H. rewrite repeat_length in H. exact H.
  - pose proof (script_drops (0%N :: repeat 0%N p)) as H. cbn [length] in H. rewrite repeat_length in H. exact H.
  - constructor. cbn [Nat.max Nat.min Nat.sub]. apply IH.
Qed.
Lemma padded_proof u v p q d n : (forall x, In x u -> x <> 0%N) -> (forall x, In x v -> x <> 0%N) -> length u + p = length v + q ->
  lev_distance (u ++ repeat 0%N p) (v ++ repeat 0%N q) = Ok d -> levenshtein u v n -> n - 1 <= d <= 2 * n.
Proof.
  intros Hu Hv Hl Hd Hn. assert (Hl' : length (u ++ repeat 0%N p) = length (v ++ repeat 0%N q)) by (rewrite !app_length, !repeat_length; exact Hl).
  destruct (levenshtein_exists (u ++ repeat 0%N p) (v ++ repeat 0%N q)) as [m Hm]. pose proof (close_proof _ _ _ _ Hl' Hd Hm) as C.
  assert (n <= m).
  { destruct Hm as [Hm _]. destruct (script_filter (fun x => negb (x =? 0)%N) _ _ _ Hm) as (k & Hk & Hs). rewrite !filter_pads in Hs by assumption. destruct Hn as [_ Hn]. specialize (Hn _ Hs). lia. }
  assert (m <= 2 * n).
  { destruct Hm as [_ Hm]. destruct Hn as [Hn _]. specialize (Hm _ (script_app _ _ _ Hn _ _ _ (pads_script p q))). apply script_length in Hn. lia. }
  lia.
Qed.

Lemma traces_proof find_match log src d i j t u r s n :
  traces_dataset_levenshtein find_match log src = Ok d ->
  nth_error log i = Some t -> nth_error log j = Some u -> nth_error (da_values d) i = Some r -> nth_error (da_values d) j = Some s ->
  levenshtein (map (class_of find_match) (trace_representation src t)) (map (class_of find_match) (trace_representation src u)) n ->
  exists x, lev_distance r s = Ok x /\ n - 1 <= x <= 2 * n.
Proof.
  intros E Ht Hu Hr Hs Hn. destruct (levenshtein_proof find_match log src) as (d' & code & len & E' & _ & _ & Hlen & Hi & Hz & Hv).
  assert (d' = d) by congruence. subst d'. rewrite Hv in Hr, Hs. erewrite map_nth_error in Hr, Hs by eassumption.
  set (a := map (class_of find_match) (trace_representation src t)) in *. set (b := map (class_of find_match) (trace_representation src u)) in *.
  assert (Ka : forall c, In c a -> exists t, In t log /\ In c (map (class_of find_match) (trace_representation src t))) by (intros c Hc; exists t; split; [apply (nth_error_In _ _ Ht)|exact Hc]).
  assert (Kb : forall c, In c b -> exists t, In t log /\ In c (map (class_of find_match) (trace_representation src t))) by (intros c Hc; exists u; split; [apply (nth_error_In _ _ Hu)|exact Hc]).
  assert (La : length a < len) by (unfold a; rewrite map_length; apply Hlen, (nth_error_In _ _ Ht)).
  assert (Lb : length b < len) by (unfold b; rewrite map_length; apply Hlen, (nth_error_In _ _ Hu)).
  assert (r = map code a ++ repeat 0%N (len - length a)) as -> by congruence. assert (s = map code b ++ repeat 0%N (len - length b)) as -> by congruence.
  assert (L0 : length (map code a) + (len - length a) = length (map code b) + (len - length b)) by (rewrite !map_length; lia).
  destruct (distance_proof (map code a ++ repeat 0%N (len - length a)) (map code b ++ repeat 0%N (len - length b))) as (x & _ & _ & Ex & _).
  { rewrite !app_length, !repeat_length. exact L0. }
  exists x. split; [exact Ex|]. eapply padded_proof; [| |exact L0|exact Ex|].
  - intros y Hy. apply in_map_iff in Hy. destruct Hy as (c & <- & Hc). apply Hz, Ka, Hc.
  - intros y Hy. apply in_map_iff in Hy. destruct Hy as (c & <- & Hc). apply Hz, Kb, Hc.
  - apply levenshtein_map; [|exact Hn]. intros x0 y0 Hx Hy. apply Hi; [apply Ka, Hx|apply Kb, Hy].
Qed.
