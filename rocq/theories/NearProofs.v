From Coq Require Import Permutation Sorted.
From Verif Require Import Py HashModel PatternModel PatternSpec PatternProofs RepeatProofs NearModel NearSpec.

Definition within (x y : interval) : Prop := iv_begin y <= iv_begin x /\ iv_end x <= iv_end y.
Definition len (x : interval) : nat := iv_end x - iv_begin x.

Lemma sort_perm l : Permutation (sort_longest l) l.
Proof.
  assert (Hi : forall x s, Permutation (insert_longest x s) (x :: s)).
  { intros x s. induction s as [|y s IH]; cbn; [apply Permutation_refl|].
    destruct (_ <=? _); [apply Permutation_refl|]. rewrite IH. apply perm_swap. }
  induction l as [|x l IH]; [constructor|]. cbn. rewrite Hi. now constructor.
Qed.

Lemma sort_sorted l : StronglySorted (fun x y => len y <= len x) (sort_longest l).
Proof.
  induction l as [|x l IH]; [constructor|]. change (sort_longest (x :: l)) with (insert_longest x (sort_longest l)). revert IH. generalize (sort_longest l) as s. induction s as [|y s IH]; intro Hs; cbn; [repeat constructor|].
  apply StronglySorted_inv in Hs as Hs2. destruct Hs2 as [Hs' Hf]. destruct (Nat.leb (iv_end y - iv_begin y) (iv_end x - iv_begin x)) eqn:E.
  - apply Nat.leb_le in E. constructor; [exact Hs|]. constructor; [unfold len; lia|]. rewrite Forall_forall in *. intros z Hz. apply Hf in Hz. unfold len in *. lia.
  - apply Nat.leb_gt in E. constructor; [now apply IH|]. rewrite Forall_forall in *. intros z Hz.
    assert (Hin : In z (x :: s)).
    { clear -Hz. revert Hz. induction s as [|w s IH]; cbn; [tauto|]. destruct (_ <=? _); cbn; [tauto|]. intros [<-|H]; [tauto|]. apply IH in H. destruct H; tauto. }
    destruct Hin as [<-|Hin]; [unfold len; lia|now apply Hf].
Qed.

Lemma near_fold all : forall rest done visited found,
  (forall x, In x rest -> In x all) ->
  (forall x, In x all -> (In x visited <-> exists y, In y done /\ within x y)) ->
  (forall x, In x visited -> In x all) ->
  NoDup found ->
  let r := snd (fold_left (near_step all) rest (visited, found)) in
  NoDup r /\ forall i, In i r <-> In i found \/ exists p x q, rest = p ++ x :: q /\ iv_data x = i /\ forall y, In y (done ++ p) -> ~ within x y.
Proof.
  induction rest as [|x rest IH]; intros done visited found Ha Hv Hva Hnd; cbn zeta.
  - cbn. split; [exact Hnd|]. intro i. split; [tauto|]. intros [H|(p & x & q & H & _)]; [exact H|]. destruct p; discriminate.
  - cbn [fold_left].
    change (near_step all (visited, found) x) with
      (if iv_mem x visited then (visited, found) else (x :: envelop all (iv_begin x) (iv_end x) ++ visited,
        if existsb (Nat.eqb (iv_data x)) found then found else found ++ [iv_data x])).
    unfold iv_mem. destruct (in_dec iv_eq_dec x visited) as [Hin|Hin].
    + destruct (IH (done ++ [x]) visited found) as [H1 H2]; [intros; apply Ha; now right| |exact Hva|exact Hnd|].
      { intros z Hz. rewrite (Hv z Hz). split; intros (y & Hy & Hw).
        - exists y. split; [apply in_or_app; now left|exact Hw].
        - apply in_app_or in Hy. destruct Hy as [Hy|[<-|[]]]; [eauto|]. apply Hv in Hin; [|apply Ha; now left]. destruct Hin as (y & Hy & Hw').
          exists y. split; [exact Hy|]. unfold within in *. lia. }
      split; [exact H1|]. intro i. rewrite (H2 i). split; (intros [H|(p & y & q & E & Hd & Hn)]; [now left|]); right.
      * exists (x :: p), y, q. rewrite E. split; [reflexivity|]. split; [exact Hd|]. intros z Hz. apply Hn. rewrite <- app_assoc. exact Hz.
      * destruct p as [|x' p]; cbn in E; injection E as -> E.
        -- exfalso. apply Hv in Hin; [|apply Ha; now left]. destruct Hin as (z & Hz & Hw). apply (Hn z); [rewrite app_nil_r; exact Hz|exact Hw].
        -- exists p, y, q. split; [exact E|]. split; [exact Hd|]. intros z Hz. apply Hn. rewrite <- app_assoc in Hz. exact Hz.
    + set (found' := if existsb (Nat.eqb (iv_data x)) found then found else found ++ [iv_data x]).
      assert (Hf : NoDup found' /\ forall i, In i found' <-> In i found \/ i = iv_data x).
      { unfold found'. destruct (existsb _ found) eqn:E.
        - apply existsb_exists in E. destruct E as (k & Hk & E). apply Nat.eqb_eq in E. subst k. split; [exact Hnd|]. intro i. split; [tauto|]. intros [H|H]; subst; assumption.
        - split.
          + apply (Permutation_NoDup (l := iv_data x :: found)); [apply Permutation_cons_append|]. constructor; [|exact Hnd]. intro H.
            assert (existsb (Nat.eqb (iv_data x)) found = true) by (apply existsb_exists; exists (iv_data x); split; [exact H|apply Nat.eqb_refl]). congruence.
          + intro i. rewrite in_app_iff. cbn. intuition. }
      destruct Hf as [Hf1 Hf2].
      destruct (IH (done ++ [x]) (x :: envelop all (iv_begin x) (iv_end x) ++ visited) found') as [H1 H2]; [intros; apply Ha; now right| | |exact Hf1|].
      { intros z Hz. cbn. rewrite in_app_iff, (Hv z Hz). unfold envelop. rewrite filter_In, andb_true_iff, !Nat.leb_le. split.
        - intros [<-|[[_ H]|(y & Hy & Hw)]].
          + exists x. split; [apply in_or_app; right; now left|unfold within; lia].
          + exists x. split; [apply in_or_app; right; now left|unfold within; lia].
          + exists y. split; [apply in_or_app; now left|exact Hw].
        - intros (y & Hy & Hw). apply in_app_or in Hy. destruct Hy as [Hy|[<-|[]]]; [right; right; eauto|]. right. left. split; [exact Hz|exact Hw]. }
      { intros z [<-|Hz]; [apply Ha; now left|]. apply in_app_or in Hz. destruct Hz as [Hz|Hz]; [|now apply Hva]. unfold envelop in Hz. apply filter_In in Hz. apply Hz. }
      assert (Hx : forall y, In y done -> ~ within x y). { intros y Hy Hw. apply Hin, Hv; [apply Ha; now left|eauto]. }
      split; [exact H1|]. intro i. rewrite (H2 i), (Hf2 i). split.
      * intros [[H| ->]|(p & y & q & E & Hd & Hn)]; [now left| |]; right.
        -- exists [], x, rest. split; [reflexivity|]. split; [reflexivity|]. intros y Hy. rewrite app_nil_r in Hy. now apply Hx.
        -- exists (x :: p), y, q. rewrite E. split; [reflexivity|]. split; [exact Hd|]. intros z Hz. apply Hn. rewrite <- app_assoc. exact Hz.
      * intros [H|(p & y & q & E & Hd & Hn)]; [tauto|]. destruct p as [|x' p]; cbn in E; injection E as -> E; [left; right; congruence|].
        right. exists p, y, q. split; [exact E|]. split; [exact Hd|]. intros z Hz. apply Hn. rewrite <- app_assoc in Hz. exact Hz.
Qed.

(** The indices found are those of the intervals inside no other one. *)
Lemma near_found all sorted : StronglySorted (fun x y => len y <= len x) sorted -> Permutation sorted all -> NoDup all ->
  (forall x, In x all -> iv_begin x < iv_end x) ->
  (forall x y, In x all -> In y all -> iv_begin x = iv_begin y -> iv_end x = iv_end y -> x = y) ->
  let r := snd (fold_left (near_step all) sorted ([], [])) in
  NoDup r /\ forall i, In i r <-> exists x, In x all /\ iv_data x = i /\ forall y, In y all -> within x y -> y = x.
Proof.
  intros Hs Hp Hnd Hpos Hd. cbn zeta.
  destruct (near_fold all sorted [] [] []) as [H1 H2]; [intros x; apply Permutation_in; exact Hp| |intros x []|constructor|].
  { intros x _. split; [intros []|intros (y & [] & _)]. }
  split; [exact H1|]. intro i. rewrite (H2 i). clear H1 H2. split.
  - intros [[]|(p & x & q & E & Hi & Hn)]. exists x. assert (Hx : In x all) by (apply (Permutation_in _ Hp); rewrite E; apply in_or_app; right; now left).
    split; [exact Hx|]. split; [exact Hi|]. intros y Hy Hw. pose proof Hy as Hy'. apply (Permutation_in _ (Permutation_sym Hp)) in Hy. rewrite E in Hy. apply in_app_or in Hy.
    destruct Hy as [Hy|[<-|Hy]]; [exfalso; exact (Hn y Hy Hw)|reflexivity|].
    assert (Hl : len y <= len x).
    { rewrite E in Hs. clear -Hs Hy. induction p as [|z p IH]; cbn in Hs; inversion Hs as [|? ? Hs' Hf]; subst; [|now apply IH]. rewrite Forall_forall in Hf. now apply Hf. }
    pose proof (Hpos x Hx). pose proof (Hpos y Hy'). apply Hd; auto; unfold within, len in *; lia.
  - intros (x & Hx & Hi & Hn). right. pose proof Hx as Hx'. apply (Permutation_in _ (Permutation_sym Hp)) in Hx. apply in_split in Hx. destruct Hx as (p & q & E).
    exists p, x, q. split; [exact E|]. split; [exact Hi|]. intros y Hy Hw. cbn in Hy.
    assert (y = x) by (apply Hn; [apply (Permutation_in _ Hp); rewrite E; apply in_or_app; now left|exact Hw]). subst y.
    assert (Hnd' : NoDup (p ++ x :: q)) by (rewrite <- E; eapply Permutation_NoDup; [symmetry; exact Hp|exact Hnd]).
    apply NoDup_remove_2 in Hnd'. apply Hnd', in_or_app. now left.
Qed.

Lemma occurrences_In s t i : s <> [] -> In i (occurrences s t) <-> i + length s <= length t /\ piece t i (length s) = s.
Proof.
  intro Hs. unfold occurrences. rewrite filter_In. unfold list_eqb, slice, piece, range. rewrite in_seq. split.
  - intros [H1 H2]. destruct (list_eq_dec _ _ _) as [E|]; [|discriminate]. split; [|exact E].
    apply (f_equal (@length N)) in E. rewrite firstn_length, skipn_length in E. lia.
  - intros [H1 H2]. split.
    + destruct s; [congruence|]. simpl in *. lia.
    + destruct (list_eq_dec _ _ _); congruence.
Qed.

Lemma block_length trace r : sa_first_pos r + sa_length r <= length trace -> length (block trace r) = sa_length r.
Proof. intro H. unfold block, piece. rewrite firstn_length, skipn_length. lia. Qed.

Lemma combine_seq {A} (l : list A) : forall s i x, In (i, x) (combine (seq s (length l)) l) <-> s <= i /\ nth_error l (i - s) = Some x.
Proof.
  induction l as [|a l IH]; intros s i x; cbn [length seq combine].
  - cbn. split; [intros []|]. intros [_ H]. now destruct (i - s).
  - cbn [In]. rewrite IH. split.
    + intros [[= <- <-]|[H1 H2]]; [rewrite Nat.sub_diag; split; [lia|reflexivity]|]. split; [lia|]. replace (i - s) with (S (i - S s)) by lia. exact H2.
    + intros [H1 H2]. destruct (Nat.eq_dec i s) as [->|Hn]; [rewrite Nat.sub_diag in H2; cbn in H2; left; congruence|]. right. split; [lia|].
      replace (i - s) with (S (i - S s)) in H2 by lia. exact H2.
Qed.

Lemma all_In trace repeats : proper_repeats trace repeats -> forall x, In x (all_intervals trace repeats) <->
  exists r, nth_error repeats (iv_data x) = Some r /\ occurs_at trace r (iv_begin x) /\ iv_end x = iv_begin x + sa_length r.
Proof.
  intros [Hb _] x. unfold all_intervals. rewrite in_flat_map. split.
  - intros ((i & r) & Hir & Hx). apply in_map_iff in Hx. destruct Hx as (start & <- & Hs). cbn [fst snd] in *. apply combine_seq in Hir. rewrite Nat.sub_0_r in Hir. destruct Hir as [_ Hr].
    destruct (Hb r (nth_error_In _ _ Hr)) as [H0 H1]. pose proof (block_length trace r H1) as Hl. unfold block in Hl.
    apply occurrences_In in Hs; [|intro E; unfold slice in E; unfold piece in Hl; rewrite E in Hl; cbn in Hl; lia].
    unfold slice in Hs. unfold piece in Hl. rewrite Hl in Hs. exists r. cbn. split; [exact Hr|]. split; [exact Hs|reflexivity].
  - intros (r & Hr & Ho & He). exists (iv_data x, r). destruct (Hb r (nth_error_In _ _ Hr)) as [H0 H1]. pose proof (block_length trace r H1) as Hl. unfold block in Hl.
    split; [apply combine_seq; rewrite Nat.sub_0_r; split; [lia|exact Hr]|]. cbn [fst snd]. apply in_map_iff. exists (iv_begin x).
    split; [destruct x; cbn in *; subst; reflexivity|]. apply occurrences_In; [intro E; unfold slice in E; unfold piece in Hl; rewrite E in Hl; cbn in Hl; lia|].
    unfold slice. unfold piece in Hl. rewrite Hl. exact Ho.
Qed.

Lemma NoDup_flat_map {A B} (f : A -> list B) l : NoDup l -> (forall a, In a l -> NoDup (f a)) ->
  (forall a b x, In a l -> In b l -> In x (f a) -> In x (f b) -> a = b) -> NoDup (flat_map f l).
Proof.
  induction 1 as [|a l Ha Hl IH]; intros Hn Hd; cbn; [constructor|].
  assert (H1 : NoDup (f a)) by (apply Hn; now left). assert (H2 : NoDup (flat_map f l)).
  { apply IH; [intros; apply Hn; now right|]. intros x y z Hx Hy. apply Hd; now right. }
  assert (H3 : forall x, In x (f a) -> ~ In x (flat_map f l)).
  { intros x Hx Hf. apply in_flat_map in Hf. destruct Hf as (b & Hb & Hxb). assert (a = b) by (apply (Hd a b x); [now left|now right|exact Hx|exact Hxb]). subst b. contradiction. }
  clear -H1 H2 H3. revert H1 H3. generalize (f a) as u. induction u as [|x u IH]; intros H1 H3; cbn; [exact H2|].
  inversion H1; subst. constructor; [|apply IH; [assumption|intros y Hy; apply H3; now right]].
  rewrite in_app_iff. intros [H|H]; [contradiction|]. apply (H3 x); [now left|exact H].
Qed.

Lemma all_NoDup trace repeats : NoDup (all_intervals trace repeats).
Proof.
  unfold all_intervals. apply NoDup_flat_map.
  - assert (H : NoDup (map fst (combine (seq 0 (length repeats)) repeats))).
    { replace (map fst _) with (seq 0 (length repeats)); [apply seq_NoDup|]. generalize 0. induction repeats as [|r rs IH]; intro s; cbn; [reflexivity|]. f_equal. apply IH. }
    clear -H. induction (combine _ _) as [|x l IH]; [constructor|]. cbn in H. inversion H; subst. constructor; [|now apply IH]. intro Hx. apply H2. now apply in_map.
  - intros [i r] _. cbn [fst snd]. apply FinFun.Injective_map_NoDup.
    + intros a b [= ->]. reflexivity.
    + unfold occurrences. apply NoDup_filter, seq_NoDup.
  - intros [i r] [j r'] x Hi Hj Hx Hy. cbn [fst snd] in *. apply in_map_iff in Hx, Hy. destruct Hx as (a & <- & _), Hy as (b & E & _). injection E as _ _ ->.
    apply combine_seq in Hi, Hj. f_equal. destruct Hi as [_ Hi], Hj as [_ Hj]. congruence.
Qed.

Lemma nth_block_inj trace repeats i j r r' : NoDup (map (block trace) repeats) ->
  nth_error repeats i = Some r -> nth_error repeats j = Some r' -> block trace r = block trace r' -> i = j.
Proof.
  intros Hnd Hi Hj E. apply (NoDup_nth_error (map (block trace) repeats)); [exact Hnd| |].
  - rewrite map_length. apply nth_error_Some. congruence.
  - rewrite (map_nth_error _ _ _ Hi), (map_nth_error _ _ _ Hj). now rewrite E.
Qed.

Section Orders.
  Variable interval_order : list interval -> list interval.
  Variable index_order : list nat -> list nat.
  Hypothesis interval_perm : forall l, Permutation (interval_order l) l.
  Hypothesis index_perm : forall l, Permutation (index_order l) l.

  Lemma near_exact_proof trace repeats : proper_repeats trace repeats ->
    let result := near_super_maximal_of_trace interval_order index_order trace repeats in
    NoDup result /\ forall r, In r result <-> In r repeats /\ exists i, free_at trace repeats r i.
  Proof.
    intro Hp. cbn zeta. unfold near_super_maximal_of_trace.
    destruct (near_found (all_intervals trace repeats) (sort_longest (interval_order (all_intervals trace repeats)))) as [H1 H2].
    - apply sort_sorted.
    - rewrite sort_perm. apply interval_perm.
    - apply all_NoDup.
    - intros x Hx. apply (all_In _ _ Hp) in Hx. destruct Hx as (r & Hr & _ & He). destruct Hp as [Hb _]. destruct (Hb r (nth_error_In _ _ Hr)). lia.
    - intros x y Hx Hy Eb Ee. apply (all_In _ _ Hp) in Hx, Hy. destruct Hx as (r & Hr & [_ Ho] & He), Hy as (r' & Hr' & [_ Ho'] & He').
      assert (sa_length r = sa_length r') by lia. assert (iv_data x = iv_data y).
      { eapply nth_block_inj; [apply (proj2 Hp)|exact Hr|exact Hr'|]. rewrite <- Ho, <- Ho'. now rewrite Eb, H. }
      destruct x as [xb xe xd], y as [yb ye yd]; cbn in *. f_equal; lia.
    - set (found := snd (fold_left _ _ _)) in *. pose proof (index_perm found) as Hpi.
      assert (Hnd : NoDup (index_order found)) by (eapply Permutation_NoDup; [symmetry; exact Hpi|exact H1]).
      assert (Hin : forall i, In i (index_order found) <-> In i found) by (intro i; split; apply Permutation_in; [|symmetry]; exact Hpi).
      split.
      + apply NoDup_flat_map; [exact Hnd| |].
        * intros i _. destruct (nth_error repeats i); repeat constructor. intros [].
        * intros i j r _ _ Hi Hj. destruct (nth_error repeats i) as [r1|] eqn:Ei; [|destruct Hi]. destruct (nth_error repeats j) as [r2|] eqn:Ej; [|destruct Hj].
          destruct Hi as [<-|[]], Hj as [<-|[]]. eapply nth_block_inj; [apply (proj2 Hp)|exact Ei|exact Ej|reflexivity].
      + intro r. rewrite in_flat_map. split.
        * intros (i & Hi & Hr). destruct (nth_error repeats i) as [r1|] eqn:Ei; [|destruct Hr]. destruct Hr as [<-|[]]. split; [eapply nth_error_In; exact Ei|].
          apply Hin, H2 in Hi. destruct Hi as (x & Hx & Hd & Hn). apply (all_In _ _ Hp) in Hx. destruct Hx as (r2 & Hr2 & Ho & He). subst i. assert (r2 = r1) by congruence. subst r2.
          exists (iv_begin x). split; [exact Ho|]. intros r' j Hr' Hj Hle Hge. apply In_nth_error in Hr'. destruct Hr' as (k & Hk).
          assert (Ey : mkIv j (j + sa_length r') k = x). { apply Hn; [apply (all_In _ _ Hp); exists r'; cbn; auto|unfold within; cbn; lia]. }
          assert (k = iv_data x) by (rewrite <- Ey; reflexivity). subst k. congruence.
        * intros (Hr & i & Ho & Hfree). apply In_nth_error in Hr. destruct Hr as (k & Hk). exists k. split; [|rewrite Hk; now left].
          apply Hin, H2. exists (mkIv i (i + sa_length r) k). split; [apply (all_In _ _ Hp); exists r; cbn; auto|]. split; [reflexivity|].
          intros y Hy [Hw1 Hw2]. cbn in Hw1, Hw2. apply (all_In _ _ Hp) in Hy. destruct Hy as (r' & Hr' & Ho' & He').
          assert (r' = r) by (apply (Hfree r' (iv_begin y)); [eapply nth_error_In; exact Hr'|exact Ho'|lia|lia]). subst r'.
          assert (iv_data y = k) by (eapply nth_block_inj; [apply (proj2 Hp)|exact Hr'|exact Hk|reflexivity]).
          destruct y as [yb ye yd]. cbn in *. subst. f_equal; lia.
  Qed.

  Lemma piece_inside {A} (t : list A) i n j m : j <= i -> i + n <= j + m -> j + m <= length t -> inside (piece t i n) (piece t j m).
  Proof.
    intros H1 H2 H3. unfold inside, piece. exists (firstn (i - j) (skipn j t)), (skipn (i + n - j) (firstn m (skipn j t))).
    rewrite <- (firstn_skipn (i - j) (firstn m (skipn j t))) at 1. rewrite firstn_firstn. replace (Nat.min (i - j) m) with (i - j) by lia. f_equal.
    rewrite skipn_firstn_comm. rewrite <- (firstn_skipn n (firstn _ _)) at 1. rewrite firstn_firstn. replace (Nat.min n (m - (i - j))) with n by lia.
    assert (Es : forall a b, skipn a (skipn b t) = skipn (b + a) t).
    { intros a b. clear. revert t. induction b as [|b IH]; intro t; [reflexivity|]. destruct t; [now rewrite !skipn_nil|]. cbn. apply IH. }
    f_equal; [now rewrite Es; replace (j + (i - j)) with i by lia|].
    rewrite !skipn_firstn_comm, !Es. f_equal; [lia|f_equal; lia].
  Qed.

  Lemma super_is_near_proof trace repeats r : proper_repeats trace repeats ->
    In r (super_maximal_of_trace trace repeats) -> In r (near_super_maximal_of_trace interval_order index_order trace repeats).
  Proof.
    intros Hp Hr. pose proof Hp as [Hb Hnd].
    assert (Hne : forall r, In r repeats -> block trace r <> []).
    { intros x Hx E. destruct (Hb x Hx) as [H0 H1]. pose proof (block_length trace x H1) as Hl. rewrite E in Hl. cbn in Hl. lia. }
    apply (super_maximal_proof _ _ Hne) in Hr. destruct Hr as (k & Hk & Hmax).
    apply (near_exact_proof _ _ Hp). pose proof (nth_error_In _ _ Hk) as Hin. split; [exact Hin|]. exists (sa_first_pos r). destruct (Hb r Hin) as [H0 H1].
    split; [split; [exact H1|reflexivity]|]. intros r' j Hr' [Ho1 Ho2] Hle Hge. apply In_nth_error in Hr'. destruct Hr' as (k' & Hk').
    destruct (Nat.eq_dec k' k) as [->|Hn]; [congruence|]. exfalso. apply (Hmax k' r' Hn Hk'). rewrite <- Ho2. unfold block. now apply piece_inside.
  Qed.
End Orders.
