From Coq Require Import Sorting.Sorted Permutation.
From Verif Require Import Py PyFacts HashModel PatternModel PatternSpec PatternProofs.

(** * occurrences *)
Lemma skipn_skipn_add {A} (l : list A) a b : skipn a (skipn b l) = skipn (b + a) l.
Proof. revert l. induction b as [|b IH]; intros l; [reflexivity|]. destruct l; [destruct a; reflexivity|]. cbn. apply IH. Qed.
Lemma list_eqb_iff a b : list_eqb a b = true <-> a = b.
Proof. unfold list_eqb. destruct (list_eq_dec N.eq_dec a b); split; congruence. Qed.

Lemma in_occurrences s t p : s <> [] -> In p (occurrences s t) <-> piece t p (length s) = s.
Proof.
  intros Hs. unfold occurrences. rewrite filter_In, list_eqb_iff, in_range. change (slice t p (length s)) with (piece t p (length s)).
  split; [tauto|]. intros E. split; [|exact E]. split; [lia|]. destruct (le_lt_dec (length t) p) as [H|H]; [|exact H]. exfalso.
  unfold piece in E. rewrite (skipn_all2 t) in E by exact H. rewrite firstn_nil in E. congruence.
Qed.

Lemma occurrences_inside s t : s <> [] -> occurrences s t <> [] <-> inside s t.
Proof.
  intros Hs. split.
  - intros H. destruct (occurrences s t) as [|p r] eqn:E; [congruence|]. assert (Hp : In p (occurrences s t)) by (rewrite E; left; reflexivity).
    apply in_occurrences in Hp; [|exact Hs]. exists (firstn p t), (skipn (p + length s) t). unfold piece in Hp.
    rewrite <- (firstn_skipn p t) at 1. f_equal. rewrite <- (firstn_skipn (length s) (skipn p t)) at 1. rewrite Hp. f_equal.
    rewrite skipn_skipn_add. reflexivity.
  - intros [p [q ->]] E. assert (Hp : In (length p) (occurrences s (p ++ s ++ q))).
    { apply in_occurrences; [exact Hs|]. unfold piece. rewrite skipn_app, skipn_all, Nat.sub_diag. cbn. rewrite firstn_app, firstn_all, Nat.sub_diag, app_nil_r. reflexivity. }
    rewrite E in Hp. destruct Hp.
Qed.

Lemma filter_range0 f n : 0 < n -> f 0 = true -> (forall i, 0 < i < n -> f i = false) -> filter f (range 0 n) = [0].
Proof.
  intros Hn H0 H. unfold range. destruct n; [lia|]. rewrite Nat.sub_0_r. cbn [seq filter]. rewrite H0. f_equal.
  assert (G : forall k a, (forall i, a <= i < a + k -> f i = false) -> filter f (seq a k) = []).
  { clear. induction k; intros a H; [reflexivity|]. cbn. rewrite (H a) by lia. apply IHk. intros i Hi. apply H. lia. }
  apply G. intros i Hi. apply H. lia.
Qed.

Lemma occurrences_self s : s <> [] -> occurrences s s = [0].
Proof.
  intros Hs. unfold occurrences. apply filter_range0.
  - destruct s; [congruence|cbn; lia].
  - apply list_eqb_iff. unfold slice. cbn. apply firstn_all.
  - intros i Hi. destruct (list_eqb _ s) eqn:E; [|reflexivity]. apply list_eqb_iff in E. exfalso.
    apply (f_equal (@length N)) in E. unfold slice in E. rewrite firstn_length, skipn_length in E. lia.
Qed.

Lemma find_all_length idx blocks s : length idx = length blocks ->
  length (find_all (combine idx blocks) s) = list_sum (map (fun b => length (occurrences s b)) blocks).
Proof.
  unfold find_all. revert blocks. induction idx as [|i idx IH]; intros [|b blocks] H; try discriminate; [reflexivity|].
  cbn [combine flat_map map list_sum fst snd]. rewrite app_length, map_length. cbn in H. rewrite IH by lia. reflexivity.
Qed.

Lemma list_sum_one l i : nth_error l i = Some 1 -> (list_sum l = 1 <-> forall j x, j <> i -> nth_error l j = Some x -> x = 0).
Proof.
  revert i. induction l as [|y l IH]; intros i Hi; [destruct i; discriminate|]. cbn [list_sum fold_right]. change (fold_right Nat.add 0 l) with (list_sum l).
  assert (Hz : list_sum l = 0 <-> forall j x, nth_error l j = Some x -> x = 0).
  { clear. induction l as [|y l IH]; [split; [intros _ [|j] x; discriminate|reflexivity]|]. cbn [list_sum fold_right]. change (fold_right Nat.add 0 l) with (list_sum l). split.
    - intros H [|j] x Hj; cbn in Hj; [injection Hj as <-; lia|]. apply (proj1 IH ltac:(lia) j x Hj).
    - intros H. pose proof (H 0 y eq_refl). assert (list_sum l = 0) by (apply IH; intros j x Hj; apply (H (S j) x Hj)). lia. }
  destruct i as [|i]; cbn in Hi.
  - injection Hi as ->. split.
    + intros H j x Hj Hx. destruct j as [|j]; [lia|]. cbn in Hx. apply (proj1 Hz ltac:(lia) j x Hx).
    + intros H. assert (list_sum l = 0); [|lia]. apply Hz. intros j x Hj. apply (H (S j) x ltac:(lia) Hj).
  - specialize (IH i Hi). assert (Hpos : 1 <= list_sum l).
    { clear -Hi. revert i Hi. induction l as [|y l IH]; intros [|i] Hi; cbn in Hi; try discriminate; cbn [list_sum fold_right]; change (fold_right Nat.add 0 l) with (list_sum l).
      - injection Hi as ->. lia.
      - specialize (IH i Hi). lia. }
    split.
    + intros H j x Hj Hx. destruct j as [|j]; cbn in Hx; [injection Hx as <-; lia|]. apply (proj1 IH ltac:(lia) j x); [lia|exact Hx].
    + intros H. pose proof (H 0 y ltac:(lia) eq_refl). assert (list_sum l = 1); [|lia]. apply IH. intros j x Hj Hx. apply (H (S j) x); [lia|exact Hx].
Qed.

Lemma nth_combine_seq {A} (l : list A) : forall a i, nth_error (combine (seq a (length l)) l) i = option_map (fun x => (a + i, x)) (nth_error l i).
Proof.
  induction l as [|x l IH]; intros a i; [destruct i; reflexivity|]. cbn [length seq combine]. destruct i as [|i]; cbn [nth_error option_map]; [f_equal; f_equal; lia|].
  rewrite IH. destruct (nth_error l i); cbn; [f_equal; f_equal; lia|reflexivity].
Qed.

Lemma super_maximal_proof trace repeats :
  (forall r, In r repeats -> block trace r <> []) ->
  forall r, In r (super_maximal_of_trace trace repeats) <->
    exists i, nth_error repeats i = Some r /\
      forall j r', j <> i -> nth_error repeats j = Some r' -> ~ inside (block trace r) (block trace r').
Proof.
  intros Hne r. unfold super_maximal_of_trace.
  set (blocks := map (fun r => slice trace (sa_first_pos r) (sa_length r)) repeats).
  assert (El : length repeats = length blocks) by (unfold blocks; rewrite map_length; reflexivity).
  rewrite in_flat_map.
  assert (Key : forall i r0, nth_error repeats i = Some r0 ->
    (length (find_all (combine (seq 0 (length repeats)) blocks) (block trace r0)) = 1 <->
     forall j r', j <> i -> nth_error repeats j = Some r' -> ~ inside (block trace r0) (block trace r'))).
  { intros i r0 Hi. assert (Hb : block trace r0 <> []) by (apply Hne; eapply nth_error_In; exact Hi).
    rewrite find_all_length by (rewrite seq_length; exact El).
    rewrite (list_sum_one _ i).
    - split.
      + intros H j r' Hj Hr' Hin. apply (occurrences_inside _ _ Hb) in Hin. apply Hin.
        specialize (H j (length (occurrences (block trace r0) (block trace r'))) Hj).
        unfold blocks in H. rewrite !nth_error_map, Hr' in H. specialize (H eq_refl).
        apply length_zero_iff_nil. exact H.
      + intros H j x Hj Hx. unfold blocks in Hx. rewrite !nth_error_map in Hx. destruct (nth_error repeats j) as [r'|] eqn:Er; [|discriminate].
        assert (Ex : x = length (occurrences (block trace r0) (block trace r'))) by (symmetry; injection Hx; auto). rewrite Ex. specialize (H j r' Hj Er).
        destruct (occurrences (block trace r0) (block trace r')) as [|p q] eqn:Eo; [reflexivity|]. exfalso. apply H. apply (occurrences_inside _ _ Hb). rewrite Eo. discriminate.
    - unfold blocks. rewrite !nth_error_map, Hi. cbn [option_map]. change (slice trace (sa_first_pos r0) (sa_length r0)) with (block trace r0). rewrite occurrences_self by exact Hb. reflexivity. }
  split.
  - intros [[i s] [Hin Hr]]. apply In_nth_error in Hin. destruct Hin as [k Hk].
    assert (Hk' : nth_error (combine (seq 0 (length blocks)) blocks) k = Some (i, s)) by (rewrite <- El; exact Hk).
    rewrite nth_combine_seq in Hk'. destruct (nth_error blocks k) as [b|] eqn:Eb; [|discriminate]. cbn in Hk'. injection Hk' as <- <-. cbn [fst snd] in Hr.
    unfold blocks in Eb. rewrite nth_error_map in Eb. destruct (nth_error repeats k) as [r0|] eqn:Er; [|discriminate]. cbn in Eb. injection Eb as <-.
    change (slice trace (sa_first_pos r0) (sa_length r0)) with (block trace r0) in Hr.
    destruct (Nat.eqb_spec (length (find_all (combine (seq 0 (length repeats)) blocks) (block trace r0))) 1) as [E1|E1]; [|destruct Hr].
    destruct Hr as [<-|[]]. exists k. split; [exact Er|]. apply (Key k r0 Er). exact E1.
  - intros [i [Hi H]]. exists (i, block trace r). split.
    + apply nth_error_In with (n := i). rewrite El, nth_combine_seq. unfold blocks. rewrite nth_error_map, Hi. reflexivity.
    + cbn [fst snd]. apply (Key i r Hi) in H. rewrite H. cbn [Nat.eqb]. rewrite Hi. left. reflexivity.
Qed.

Lemma inside_trans {A} (a b c : list A) : inside a b -> inside b c -> inside a c.
Proof. intros [p [q ->]] [p' [q' ->]]. exists (p' ++ p), (q ++ q'). rewrite <- !app_assoc. reflexivity. Qed.
Lemma inside_length {A} (a b : list A) : inside a b -> length a <= length b.
Proof. intros [p [q ->]]. rewrite !app_length. lia. Qed.
Lemma inside_same_length {A} (a b : list A) : inside a b -> length b <= length a -> a = b.
Proof. intros [p [q ->]]. rewrite !app_length. intros H. destruct p, q; cbn in *; try lia. rewrite app_nil_r. reflexivity. Qed.
Lemma inside_refl {A} (a : list A) : inside a a.
Proof. exists [], []. cbn. rewrite app_nil_r. reflexivity. Qed.

Lemma exists_longest {A} (f : A -> nat) (l : list A) : l <> [] -> exists x, In x l /\ forall y, In y l -> f y <= f x.
Proof.
  induction l as [|a l IH]; [congruence|]. intros _. destruct l as [|b l].
  - exists a. split; [left; reflexivity|]. intros y [<-|[]]. lia.
  - destruct IH as [x [H1 H2]]; [discriminate|]. destruct (le_lt_dec (f a) (f x)) as [H|H].
    + exists x. split; [right; exact H1|]. intros y [<-|Hy]; [exact H|apply H2; exact Hy].
    + exists a. split; [left; reflexivity|]. intros y [<-|Hy]; [lia|]. specialize (H2 y Hy). lia.
Qed.

Lemma super_maximal_cover_proof trace repeats :
  (forall r, In r repeats -> block trace r <> []) -> NoDup (map (block trace) repeats) ->
  forall r, In r repeats -> exists r', In r' (super_maximal_of_trace trace repeats) /\ inside (block trace r) (block trace r').
Proof.
  intros Hne Hnd r Hr. assert (Hb : block trace r <> []) by (apply Hne; exact Hr).
  set (cands := filter (fun r' => negb (length (occurrences (block trace r) (block trace r')) =? 0)) repeats).
  assert (Hc : forall r', In r' cands <-> In r' repeats /\ inside (block trace r) (block trace r')).
  { intros r'. unfold cands. rewrite filter_In, <- (occurrences_inside _ _ Hb). apply and_iff_compat_l.
    destruct (occurrences (block trace r) (block trace r')); cbn; split; congruence. }
  destruct (exists_longest (fun r' => length (block trace r')) cands) as [m [Hm Hmax]].
  { intros E. assert (H : In r cands) by (apply Hc; split; [exact Hr|apply inside_refl]). rewrite E in H. destruct H. }
  apply Hc in Hm. destruct Hm as [Hm1 Hm2]. exists m. split; [|exact Hm2].
  apply super_maximal_proof; [exact Hne|]. destruct (In_nth_error _ _ Hm1) as [i Hi]. exists i. split; [exact Hi|].
  intros j r' Hj Hr' Hin. assert (Hcr : In r' cands).
  { apply Hc. split; [eapply nth_error_In; exact Hr'|]. eapply inside_trans; eassumption. }
  specialize (Hmax r' Hcr). apply inside_same_length in Hin; [|exact Hmax]. apply Hj.
  rewrite NoDup_nth_error in Hnd. symmetry. apply Hnd; [rewrite map_length; apply nth_error_Some; congruence|].
  rewrite !nth_error_map, Hi, Hr'. cbn. congruence.
Qed.

Lemma super_maximal_antichain_proof trace repeats :
  (forall r, In r repeats -> block trace r <> []) ->
  forall r r', In r (super_maximal_of_trace trace repeats) -> In r' (super_maximal_of_trace trace repeats) ->
    inside (block trace r) (block trace r') -> r = r'.
Proof.
  intros Hne r r' H1 H2 Hin. apply super_maximal_proof in H1; [|exact Hne]. apply super_maximal_proof in H2; [|exact Hne].
  destruct H1 as [i [Hi H1]], H2 as [j [Hj _]]. destruct (Nat.eq_dec j i) as [->|Hne']; [congruence|]. exfalso. exact (H1 j r' Hne' Hj Hin).
Qed.

(** * repeat sets *)
Lemma in_insert_N x y l : In y (insert_N x l) <-> y = x \/ In y l.
Proof.
  induction l as [|z l IH]; [cbn; split; intros [H|H]; auto|]. cbn [insert_N]. destruct (N.ltb_spec x z); [cbn; split; intros [H1|H1]; auto|].
  destruct (N.eqb_spec x z) as [->|Hne]; [cbn; split; [tauto|intros [->|H1]; [left; reflexivity|exact H1]]|]. cbn. rewrite IH. tauto.
Qed.
Lemma insert_N_sorted x l : StronglySorted N.lt l -> StronglySorted N.lt (insert_N x l).
Proof.
  induction 1 as [|z l Hs IH HF]; [repeat constructor|]. cbn [insert_N]. destruct (N.ltb_spec x z) as [H|H].
  - constructor; [constructor; assumption|]. constructor; [exact H|]. eapply Forall_impl; [|exact HF]. intros a Ha. cbn in Ha. lia.
  - destruct (N.eqb_spec x z) as [->|Hne]; [constructor; assumption|]. constructor; [exact IH|]. apply Forall_forall. intros y Hy.
    apply in_insert_N in Hy. destruct Hy as [->|Hy]; [lia|]. rewrite Forall_forall in HF. apply HF. exact Hy.
Qed.
Lemma sorted_set_sorted l : StronglySorted N.lt (sorted_set l).
Proof. induction l; cbn; [constructor|]. apply insert_N_sorted. assumption. Qed.
Lemma in_sorted_set x l : In x (sorted_set l) <-> In x l.
Proof. induction l as [|y l IH]; [tauto|]. cbn. change (fold_right insert_N [] l) with (sorted_set l). rewrite in_insert_N, IH. split; intros [H|H]; auto. Qed.

Lemma sorted_ext a b : StronglySorted N.lt a -> StronglySorted N.lt b -> (forall x, In x a <-> In x b) -> a = b.
Proof.
  intros Ha. revert b. induction Ha as [|x a Ha IH HFa]; intros b Hb H.
  - destruct b as [|y b]; [reflexivity|]. exfalso. apply (H y). left; reflexivity.
  - destruct Hb as [|y b Hb HFb]; [exfalso; apply (H x); left; reflexivity|]. rewrite Forall_forall in HFa, HFb.
    assert (x = y).
    { destruct (proj1 (H x) (or_introl eq_refl)) as [E|E]; [auto|]. destruct (proj2 (H y) (or_introl eq_refl)) as [E'|E']; [auto|].
      specialize (HFa y E'). specialize (HFb x E). lia. }
    subst y. f_equal. apply IH; [exact Hb|]. intros z. split; intros Hz.
    + destruct (proj1 (H z) (or_intror Hz)) as [<-|E]; [exfalso; specialize (HFa x Hz); lia|exact E].
    + destruct (proj2 (H z) (or_intror Hz)) as [<-|E]; [exfalso; specialize (HFb x Hz); lia|exact E].
Qed.

Lemma sorted_set_eq a b : sorted_set a = sorted_set b <-> forall x, In x a <-> In x b.
Proof.
  split.
  - intros E x. rewrite <- (in_sorted_set x a), <- (in_sorted_set x b), E. tauto.
  - intros H. apply sorted_ext; [apply sorted_set_sorted..|]. intros x. rewrite !in_sorted_set. apply H.
Qed.

Definition set_hash (l : list N) : N := collection_poly_hash (sorted_set l).

Definition rs_step (acc : dict N repeat_set) (p : repeat_set * list N) : dict N repeat_set :=
  if dmem N.eq_dec acc (set_hash (snd p)) then acc else dset N.eq_dec acc (set_hash (snd p)) (fst p).

Lemma repeat_sets_loop_fold pairs : forall index acc, repeat_sets_loop index pairs acc = fold_left rs_step (all_patterns index pairs) acc.
Proof.
  induction pairs as [|[subs trace] pairs IH]; intros index acc; [reflexivity|]. cbn [repeat_sets_loop all_patterns]. rewrite IH, fold_left_app. f_equal.
  unfold repeat_sets_trace. revert acc. induction subs as [|s subs IHs]; intros acc; [reflexivity|]. cbn [fold_left map]. rewrite IHs. reflexivity.
Qed.

(** the first pattern of each hash *)
Fixpoint firsts (seen : list N) (l : list (repeat_set * list N)) : list (repeat_set * list N) :=
  match l with
  | [] => []
  | p :: r => if in_dec N.eq_dec (set_hash (snd p)) seen then firsts seen r else p :: firsts (set_hash (snd p) :: seen) r
  end.

Lemma dset_fresh_N (d : dict N repeat_set) k v : ~ In k (dkeys d) -> dset N.eq_dec d k v = d ++ [(k, v)].
Proof.
  induction d as [|[k' v'] d IH]; intros H; [reflexivity|]. cbn. destruct (N.eq_dec k k') as [->|Hne]; [exfalso; apply H; left; reflexivity|].
  rewrite IH; [reflexivity|]. intros Hin. apply H. right; exact Hin.
Qed.

Lemma firsts_perm l : forall s s', (forall x, In x s <-> In x s') -> firsts s l = firsts s' l.
Proof.
  induction l as [|p l IH]; intros s s' H; [reflexivity|]. cbn. destruct (in_dec N.eq_dec (set_hash (snd p)) s) as [Hs|Hs], (in_dec N.eq_dec (set_hash (snd p)) s') as [Hs'|Hs'].
  - apply IH; exact H. - exfalso; apply Hs', H, Hs. - exfalso; apply Hs, H, Hs'.
  - f_equal. apply IH. intros x. cbn. rewrite H. tauto.
Qed.

Lemma fold_rs l : forall acc, dvalues (fold_left rs_step l acc) = dvalues acc ++ map fst (firsts (dkeys acc) l).
Proof.
  induction l as [|p l IH]; intros acc; [cbn; rewrite app_nil_r; reflexivity|]. cbn [fold_left firsts]. rewrite IH. unfold rs_step, dmem.
  destruct (in_dec N.eq_dec (set_hash (snd p)) (dkeys acc)) as [Hin|Hin].
  - assert (Hx : exists v, dget N.eq_dec acc (set_hash (snd p)) = Some v) by (apply (dget_Some_key N.eq_dec); exact Hin). destruct Hx as [v ->]. reflexivity.
  - rewrite (proj2 (dget_None N.eq_dec acc (set_hash (snd p))) Hin). rewrite dset_fresh_N by exact Hin. unfold dvalues, dkeys. rewrite !map_app. cbn [map fst snd].
    rewrite <- app_assoc. cbn. do 2 f_equal. f_equal. apply firsts_perm. intros x. rewrite in_app_iff. cbn. tauto.
Qed.

Lemma create_repeat_sets_firsts traces subs : create_repeat_sets traces subs = map fst (firsts [] (all_patterns 0 (combine subs traces))).
Proof. unfold create_repeat_sets. rewrite repeat_sets_loop_fold, fold_rs. reflexivity. Qed.

Lemma in_firsts l : forall seen x, In x (firsts seen l) <-> exists p q, l = p ++ x :: q /\ ~ In (set_hash (snd x)) seen /\ forall y, In y p -> set_hash (snd y) <> set_hash (snd x).
Proof.
  induction l as [|y l IH]; intros seen x; cbn [firsts].
  - split; [intros []|intros [p [q [E _]]]; destruct p; discriminate].
  - destruct (in_dec N.eq_dec (set_hash (snd y)) seen) as [Hs|Hs].
    + rewrite IH. split.
      * intros [p [q [-> [H1 H2]]]]. exists (y :: p), q. split; [reflexivity|]. split; [exact H1|]. intros z [<-|Hz]; [congruence|apply H2; exact Hz].
      * intros [p [q [E [H1 H2]]]]. destruct p as [|z p]; cbn in E; injection E as -> ->; [contradiction|]. exists p, q. split; [reflexivity|]. split; [exact H1|]. intros w Hw. apply H2; right; exact Hw.
    + cbn [In]. rewrite IH. split.
      * intros [<-|[p [q [-> [H1 H2]]]]].
        -- exists [], l. split; [reflexivity|]. split; [exact Hs|intros z []].
        -- exists (y :: p), q. split; [reflexivity|]. split; [intros H; apply H1; right; exact H|]. intros z [<-|Hz]; [intros E; apply H1; left; exact E|apply H2; exact Hz].
      * intros [p [q [E [H1 H2]]]]. destruct p as [|z p]; cbn in E; injection E as -> ->; [left; reflexivity|]. right. exists p, q. split; [reflexivity|].
        split; [intros [H|H]; [apply (H2 z (or_introl eq_refl)); exact H|contradiction]|]. intros w Hw. apply H2; right; exact Hw.
Qed.

Lemma firsts_distinct l : forall seen, NoDup (map (fun p => set_hash (snd p)) (firsts seen l)) /\ forall x, In x (firsts seen l) -> ~ In (set_hash (snd x)) seen.
Proof.
  induction l as [|y l IH]; intros seen; [split; [constructor|intros x []]|]. cbn [firsts]. destruct (in_dec N.eq_dec (set_hash (snd y)) seen) as [Hs|Hs]; [apply IH|].
  destruct (IH (set_hash (snd y) :: seen)) as [I1 I2]. split.
  - cbn. constructor; [|exact I1]. intros Hin. apply in_map_iff in Hin. destruct Hin as [x [E Hx]]. apply (I2 x Hx). left. symmetry; exact E.
  - intros x [<-|Hx]; [exact Hs|]. intros H. apply (I2 x Hx). right; exact H.
Qed.

Lemma firsts_covers l : forall seen y, In y l -> In (set_hash (snd y)) seen \/ exists x, In x (firsts seen l) /\ set_hash (snd x) = set_hash (snd y).
Proof.
  induction l as [|z l IH]; intros seen y Hy; [destruct Hy|]. cbn [firsts]. destruct (in_dec N.eq_dec (set_hash (snd z)) seen) as [Hs|Hs].
  - destruct Hy as [<-|Hy]; [left; exact Hs|apply IH; exact Hy].
  - destruct Hy as [<-|Hy]; [right; exists z; split; [left; reflexivity|reflexivity]|].
    destruct (IH (set_hash (snd z) :: seen) y Hy) as [[H|H]|[x [H1 H2]]].
    + right. exists z. split; [left; reflexivity|exact H].
    + left; exact H.
    + right. exists x. split; [right; exact H1|exact H2].
Qed.

Lemma sorted_set_same a b : sorted_set a = sorted_set b <-> same_set a b.
Proof. exact (sorted_set_eq a b). Qed.

Lemma repeat_sets_exact_proof traces subs : collision_free traces subs ->
  exists l, create_repeat_sets traces subs = map fst l /\
    (forall x, In x l <-> exists p q, all_patterns 0 (combine subs traces) = p ++ x :: q /\ forall y, In y p -> ~ same_set (snd y) (snd x)).
Proof.
  intros Hc. exists (firsts [] (all_patterns 0 (combine subs traces))). split; [apply create_repeat_sets_firsts|].
  intros x. rewrite in_firsts. split.
  - intros [p [q [E [_ H]]]]. exists p, q. split; [exact E|]. intros y Hy Hs. apply (H y Hy). unfold set_hash. f_equal. apply (proj2 (sorted_set_same _ _)). exact Hs.
  - intros [p [q [E H]]]. exists p, q. split; [exact E|]. split; [intros []|]. intros y Hy Hh. apply (H y Hy). apply (proj1 (sorted_set_same _ _)). apply (Hc y x); [| |exact Hh]; rewrite E; apply in_or_app; [left; exact Hy|right; left; reflexivity].
Qed.

Lemma repeat_sets_distinct_proof traces subs :
  exists l, create_repeat_sets traces subs = map fst l /\ incl l (all_patterns 0 (combine subs traces)) /\
    forall i j x y, i <> j -> nth_error l i = Some x -> nth_error l j = Some y -> ~ same_set (snd x) (snd y).
Proof.
  exists (firsts [] (all_patterns 0 (combine subs traces))). split; [apply create_repeat_sets_firsts|]. split.
  - intros x Hx. apply in_firsts in Hx. destruct Hx as [p [q [-> _]]]. apply in_or_app. right; left; reflexivity.
  - intros i j x y Hij Hi Hj Hs. destruct (firsts_distinct (all_patterns 0 (combine subs traces)) []) as [Hn _]. apply Hij.
    rewrite NoDup_nth_error in Hn. apply Hn; [rewrite map_length; apply nth_error_Some; congruence|]. rewrite !nth_error_map, Hi, Hj. cbn.
    f_equal. unfold set_hash. f_equal. apply (proj2 (sorted_set_same _ _)). exact Hs.
Qed.

Lemma repeat_sets_covered_proof traces subs : collision_free traces subs ->
  forall p, In p (all_patterns 0 (combine subs traces)) ->
  exists r, In r (create_repeat_sets traces subs) /\ exists t, In (r, t) (all_patterns 0 (combine subs traces)) /\ same_set t (snd p).
Proof.
  intros Hc p Hp. destruct (firsts_covers _ [] p Hp) as [[]|[[r t] [H1 H2]]]. exists r. rewrite create_repeat_sets_firsts. split.
  - apply in_map_iff. exists (r, t). split; [reflexivity|exact H1].
  - exists t. assert (Hin : In (r, t) (all_patterns 0 (combine subs traces))).
    { apply in_firsts in H1. destruct H1 as [a [b [-> _]]]. apply in_or_app. right; left; reflexivity. }
    split; [exact Hin|]. apply (proj1 (sorted_set_same _ _)). apply (Hc (r, t) p Hin Hp). exact H2.
Qed.
